(** What is checked of a module, a class and a function (C122).

    Full property: checking a module checks every contract of every function and class that the
    module defines, unless it is switched off or there is nothing that could be run: each
    postcondition, under all of its preconditions; a text that is not valid is reported instead.
    In a class, abstract methods are not checked, nor is whether __init__ establishes the
    invariants (it is where instances are made that they are required). *)
From Coq Require Import String.
From Coq Require Import List Bool.
From Verif Require Import Targets_Model Targets_Spec Targets_Proofs.
Import ListNotations.
Open Scope string_scope.
Open Scope list_scope.

Section T.
Variable dk : kinds.

(** A function: each postcondition once, in order, all preconditions assumed. *)
Theorem function_checked m found o ks c :
  enabled_for m o -> kinds_for dk m o ks -> found ks = Some c -> well_formed c ->
  analyze_function dk m found o = map (fun q => Check q (c_pre c)) (c_post c).
Proof.
  intros E K F W. unfold analyze_function. cbv zeta. apply (full_enabled dk) in E.
  pose proof (kinds_fun _ _ _ _ _ (full_kinds dk m o) K) as X. rewrite E, X, F. cbn [negb].
  pose proof W as W'. apply no_messages in W'. rewrite W'. now rewrite all_compile.
Qed.
(** Nothing when it is switched off or has no conditions. *)
Theorem function_skipped m found o : ~ enabled_for m o \/ (forall ks, kinds_for dk m o ks -> found ks = None) ->
  analyze_function dk m found o = [].
Proof.
  intro H. destruct (analyze_function dk m found o) as [|k l] eqn:E; [reflexivity|]. exfalso.
  assert (I : In k (analyze_function dk m found o)) by (rewrite E; now left).
  apply function_in in I as (ks & c & N & K & F & _). destruct H as [H|H]; [contradiction|]. rewrite (H ks K) in F. discriminate.
Qed.
(** Texts that are not valid: all the problems, and nothing is checked. *)
Theorem function_problems m found o ks c :
  enabled_for m o -> kinds_for dk m o ks -> found ks = Some c -> ~ well_formed c ->
  exists l, analyze_function dk m found o = [Problems l] /\ forall i, In i l <-> is_problem c i.
Proof.
  intros E K F W. exists (syntax_messages c). split; [|apply messages_are].
  unfold analyze_function. cbv zeta. apply (full_enabled dk) in E.
  pose proof (kinds_fun _ _ _ _ _ (full_kinds dk m o) K) as X. rewrite E, X, F. cbn [negb].
  destruct (syntax_messages c) eqn:S; [|reflexivity]. apply no_messages in S. contradiction.
Qed.

(** A class: exactly the runnable methods that are not switched off.  Of __init__ it says when it is
    analyzed at all: there is something besides invariants.  Missing: methods with an analysis_kind
    directive of their own. *)
Theorem class_checked_partial o abstract members methods nested :
  (forall ks, NoDup (map fst (methods ks))) ->
  (forall n, o_kinds o <> None \/ m_callable (members n) = false \/ o_kinds (m_opts (members n)) = None) ->
  exists ks, (o_kinds o = Some ks \/ o_kinds o = None /\ ks = dk) /\
  (forall n q assumed, In (n, Check q assumed) (analyze_class dk o (Cls abstract members methods nested)) <->
    exists c, In (n, c) (methods ks) /\ runnable abstract (members n) /\ enabled_for (members n) o /\
      (c_pre c <> [] \/ c_messages c <> [] \/ exists q, In q (c_post c) /\ (n = "__init__" -> c_invariant q = false)) /\
      well_formed c /\ In q (c_post c) /\ assumed = c_pre c) /\
  (forall n l, In (n, Problems l) (analyze_class dk o (Cls abstract members methods nested)) ->
    exists c, In (n, c) (methods ks) /\ ~ well_formed c /\ forall i, In i l <-> is_problem c i) /\
  (forall n c, In (n, c) (methods ks) -> ~ well_formed c -> n <> "__init__" ->
    runnable abstract (members n) -> enabled_for (members n) o ->
    exists l, In (n, Problems l) (analyze_class dk o (Cls abstract members methods nested))).
Proof.
  intros ND NK. destruct (class_in dk o abstract members methods nested ND NK) as (ks & K & H). exists ks. split; [exact K|].
  split; [|split].
  - intros n q a. rewrite H. split.
    + intros (c & I & R & E & A & [[W (q' & Q & [= -> ->])]|[_ [=]]]). exists c. tauto.
    + intros (c & I & R & E & A & W & Q & ->). exists c. repeat split; auto; try apply R. left. split; [exact W|]. eauto.
  - intros n l I. apply H in I as (c & I & R & E & A & [[_ (? & _ & [=])]|[W [= ->]]]). exists c. repeat split; auto; apply messages_are.
  - intros n c I W N R E. exists (syntax_messages c). apply H. exists c. split; [exact I|]. split; [exact R|]. split; [exact E|].
    split; [|now right]. destruct (c_pre c) as [|x p] eqn:P; [|left; discriminate]. right.
    destruct (c_messages c) as [|x p'] eqn:M; [|left; discriminate]. right.
    destruct (c_post c) as [|q l] eqn:Q.
    + exfalso. apply W. split; [exact M|]. rewrite P, Q. intros ? [[]|[]].
    + exists q. split; [now left|contradiction].
Qed.

(** Abstract methods are never checked, nor is anything of an abstract class that needs an instance. *)
Theorem abstract_not_checked o abstract members methods nested n k :
  In (n, k) (analyze_class dk o (Cls abstract members methods nested)) -> runnable abstract (members n).
Proof.
  cbn [analyze_class]. rewrite in_flat_map. intros ((n' & c) & _ & M). apply method_in in M. now destruct M as (-> & R & _).
Qed.
(** What __init__ does about the invariants is not checked, if it has no other conditions. *)
Theorem init_invariants_partial o abstract members methods nested :
  (forall ks c, In ("__init__", c) (methods ks) -> c_pre c = [] /\ c_messages c = [] /\ forall q, In q (c_post c) -> c_invariant q = true) ->
  forall k, ~ In ("__init__", k) (analyze_class dk o (Cls abstract members methods nested)).
Proof.
  intros H k. cbn [analyze_class]. rewrite in_flat_map. intros ((n' & c) & I & M). apply method_in in M as (<- & _ & A & _).
  destruct (H _ _ I) as (P & G & Q). cbn in A. unfold has_any, without_invariants in A. cbn in A. rewrite P, G in A. cbn in A.
  replace (filter _ (c_post c)) with (@nil cond) in A; [discriminate|]. symmetry.
  destruct (filter _ _) as [|q l] eqn:E; [reflexivity|].
  assert (X : In q (filter (fun q => negb (c_invariant q)) (c_post c))) by (rewrite E; now left).
  apply filter_In in X as [X Y]. rewrite Q in Y by exact X. discriminate.
Qed.

(** A module: what is checked of each function and class that has the module's name; the names of
    other modules' members do not matter. *)
Theorem module_checked_partial module_name o l n mt k :
  In (n, mt, k) (analyze_module dk module_name o l) <->
  exists e, In e l /\ e_name e = n /\ e_module e = Some module_name /\
    ((exists m found, e_what e = EFun m found /\ mt = None /\ In k (analyze_function dk m found o)) \/
     (exists c mn, e_what e = EClass c /\ mt = Some mn /\ In (mn, k) (analyze_class dk o c))).
Proof.
  unfold analyze_module, top_level. rewrite in_flat_map. split.
  - intros (e & I & A). apply filter_In in I as [I M]. apply andb_prop in M as [M W]. exists e.
    destruct (e_module e) as [mo|] eqn:EM; [|discriminate]. apply String.eqb_eq in M. subst mo. unfold analyze_entry in A.
    destruct (e_what e) as [m found|c|oc]; [| |discriminate]; apply in_map_iff in A.
    + destruct A as (k' & [= <- <- <-] & A). repeat split; auto. left. eauto.
    + destruct A as ((mn & k') & [= <- <- <-] & A). repeat split; auto. right. eauto.
  - intros (e & I & N & M & H). exists e. split.
    + apply filter_In. split; [exact I|]. rewrite M, String.eqb_refl. now destruct H as [(m & f & -> & _)|(c & mn & -> & _)].
    + unfold analyze_entry. destruct H as [(m & f & -> & -> & A)|(c & mn & -> & -> & A)]; apply in_map_iff.
      * exists k. now rewrite N.
      * exists (mn, k). now rewrite N.
Qed.
End T.
Print Assumptions function_checked.
Print Assumptions function_skipped.
Print Assumptions function_problems.
Print Assumptions class_checked_partial.
Print Assumptions abstract_not_checked.
Print Assumptions init_invariants_partial.
Print Assumptions module_checked_partial.

(** * Witnesses *)
Definition plain : member := Member DFunction false true (Opts None None).
Definition no_opts : opts := Opts None None.
Definition post1 : cond := Cond 1 false true.
Definition pre1 : cond := Cond 2 false true.
Definition inv1 : cond := Cond 3 true true.
Definition bad1 : cond := Cond 4 false false.

Example function_checked_case :
  analyze_function [0] plain (fun _ => Some (Conds [pre1] [post1; inv1] [])) no_opts = [Check post1 [pre1]; Check inv1 [pre1]] /\
  analyze_function [0] plain (fun _ => Some (Conds [bad1] [post1] [7])) no_opts = [Problems [4; 7]] /\
  analyze_function [0] (Member DFunction false true (Opts (Some false) None)) (fun _ => Some (Conds [] [post1] [])) no_opts = [].
Proof. repeat split. Qed.
(** An abstract class with an abstract method, an instance method and a static method *)
Definition shape_members (n : string) : member :=
  if String.eqb n "area" then Member DFunction true true no_opts
  else if String.eqb n "unit" then Member DStatic false true no_opts else plain.
Definition shape (abstract : bool) : cls :=
  Cls abstract shape_members (fun _ => [("area", Conds [] [post1] []); ("unit", Conds [] [post1] []); ("scale", Conds [inv1] [inv1] []); ("__init__", Conds [] [inv1] [])]) [].
Example class_checked_case :
  analyze_class [0] no_opts (shape true) = [("unit", Check post1 [])] /\
  analyze_class [0] no_opts (shape false) = [("unit", Check post1 []); ("scale", Check inv1 [inv1])].
Proof. split; reflexivity. Qed.

(** Once __init__ has a precondition (or a postcondition) of its own, it is checked whether it
    establishes the invariants: the conditions without them are only used to decide whether to go
    on. *)
Theorem init_invariants_refuted : exists members methods q assumed,
  (forall c, In ("__init__", c) (methods [0]) -> c_post c = [q] /\ c_invariant q = true) /\
  In ("__init__", Check q assumed) (analyze_class [0] no_opts (Cls false members methods [])).
Proof.
  exists (fun _ => plain), (fun _ => [("__init__", Conds [pre1] [inv1] [])]), inv1, [pre1]. split.
  - intros c [[= <-]|[]]. auto.
  - cbn. now left.
Qed.
(** A method's own directive about the kinds of contracts is not looked at: its contracts are
    checked when it is analyzed by itself, and not when its class is. *)
Theorem method_kinds_refuted : exists members (methods : kinds -> list (string * conds)) n,
  analyze_function [0] (members n) (fun ks => get n (methods ks)) no_opts = [Check post1 []] /\
  analyze_class [0] no_opts (Cls false members methods []) = [].
Proof.
  exists (fun _ => Member DFunction false true (Opts None (Some [1]))),
         (fun ks => match ks with [1] => [("run", Conds [] [post1] [])] | _ => [] end), "run".
  split; reflexivity.
Qed.
(** A function with contracts is not checked when what the module has is not a function but an
    object that wraps it, as functools.lru_cache makes. *)
Theorem wrapped_function_refuted : exists m found,
  analyze_function [0] m found no_opts = [Check post1 []] /\
  analyze_module [0] "mod" no_opts [Named "f" (Some "mod") (EOther (Some (m, found)))] = [].
Proof. exists plain, (fun _ => Some (Conds [] [post1] [])). split; reflexivity. Qed.
(** Nor are the classes defined in the body of a class. *)
Theorem nested_class_refuted : exists inner,
  analyze_class [0] no_opts inner = [("run", Check post1 [])] /\
  analyze_module [0] "mod" no_opts [Named "Outer" (Some "mod") (EClass (Cls false (fun _ => plain) (fun _ => []) [("Inner", inner)]))] = [].
Proof. exists (Cls false (fun _ => plain) (fun _ => [("run", Conds [] [post1] [])]) []). split; reflexivity. Qed.
(** A module with an imported function, one of its own and a class *)
Example module_checked_case :
  analyze_module [0] "mod" no_opts
    [Named "sqrt" (Some "math") (EFun plain (fun _ => Some (Conds [] [post1] [])));
     Named "f" (Some "mod") (EFun plain (fun _ => Some (Conds [pre1] [post1] [])));
     Named "Shape" (Some "mod") (EClass (shape true))]
  = [("f", None, Check post1 [pre1]); ("Shape", Some "unit", Check post1 [])].
Proof. reflexivity. Qed.
Print Assumptions init_invariants_refuted.
Print Assumptions method_kinds_refuted.
Print Assumptions wrapped_function_refuted.
Print Assumptions nested_class_refuted.
