(** C132: what a condition in a docstring means *)
From Coq Require Import String List Bool.
From Verif Require Import Cond_Model Cond_Spec Cond_Proofs.
Import ListNotations.
Open Scope string_scope.

Section Properties.
  Variables (Val St Exc : Type).
  Notation expr := (expr Val). Notation names := (names Val). Notation M := (M St Exc).
  Variable true_val : Val.
  Variable name_error : string -> Exc.
  Variable call : Val -> list Val -> list (string * Val) -> M Val.
  Variable truth : Val -> M bool.
  Variable items : Val -> M (list Val).
  Variable pack : list Val -> Val.
  Variable oper : string -> list Val -> M Val.
  Variable holder : names -> Val.
  Notation precondition := (precondition Val St Exc true_val name_error call truth items pack oper holder).
  Notation postcondition := (postcondition Val St Exc true_val name_error call truth items pack oper holder).
  Notation means := (means Val St Exc true_val name_error call truth items pack oper).
  Notation condition_name := (condition_name Val holder).

  (** A condition is a syntax error exactly if it has a call of implies with other than two positional
      arguments, wherever that call is. *)
  Theorem condition_syntax_partial : forall f args original result src,
    ((exists m, precondition f args src = Some m) <-> implies_ok Val false src) /\
    ((exists m, postcondition f args original result src = Some m) <-> implies_ok Val false src).
  Proof.
    intros. rewrite <- !(transform_defined Val St Exc true_val name_error call truth items oper). unfold Cond_Model.precondition, Cond_Model.postcondition, option_map.
    destruct (transform Val true_val src) as [e|]; split; split; intros [x H]; try discriminate H; eexists; reflexivity.
  Qed.

  (** A precondition means what its author wrote: names are the parameters, then the variables of the enclosing
      function, the globals and the built-ins; implies(x, y) looks at y only if x is true. *)
  Theorem precondition_meaning_partial : forall f args src m,
    (forall x, of_list _ (nonlocals _ f) x = None \/ globals _ f x = None) -> args "__old__" = None ->
    precondition f args src = Some m ->
    forall s r s', m s = (r, s') <-> means (condition_name f args args None) src s r s'.
  Proof.
    intros f args src m G O H. unfold Cond_Model.precondition, option_map in H. destruct (transform Val true_val src) as [e|] eqn:T; [|discriminate].
    inversion H; subst m. unfold evaluate. intros. apply transform_means; [assumption|]. intro x. rewrite pre_lookup, globals_lookup by apply G.
    unfold Cond_Spec.condition_name, special, python_name, first_of. cbn [fold_right].
    destruct (String.eqb x "__old__") eqn:X; [apply String.eqb_eq in X; subst; now rewrite O|].
    destruct (String.eqb x "__return__" || String.eqb x "_"); destruct (args x), (of_list _ (nonlocals _ f) x), (globals _ f x), (builtins _ f x); reflexivity.
  Qed.
  (** A postcondition likewise, with the result and the old arguments, and with the parameters as they are after
      the call; what is missing: the function's own name must mean the function there. *)
  Theorem postcondition_meaning_partial : forall f args original result src m,
    (forall x, of_list _ (nonlocals _ f) x = None \/ globals _ f x = None) ->
    condition_name f args original (Some result) (fname _ f) = Some (self_val _ f) ->
    postcondition f args original result src = Some m ->
    forall s r s', m s = (r, s') <-> means (condition_name f args original (Some result)) src s r s'.
  Proof.
    intros f args original result src m G O H. unfold Cond_Model.postcondition, option_map in H. destruct (transform Val true_val src) as [e|] eqn:T; [|discriminate].
    inversion H; subst m. unfold evaluate. intros. apply transform_means; [assumption|]. intro x. rewrite post_lookup.
    destruct (String.eqb x (fname _ f)) eqn:X; [apply String.eqb_eq in X; subst; now rewrite O|]. rewrite globals_lookup by apply G.
    unfold Cond_Spec.condition_name, python_name, first_of. cbn [fold_right].
    destruct (special _ _ _ _ _); [reflexivity|]. destruct (args x), (of_list _ (nonlocals _ f) x), (globals _ f x), (builtins _ f x); reflexivity.
  Qed.
  (** Evaluating a condition has exactly one outcome. *)
  Theorem condition_one_outcome : forall env src, implies_ok Val false src -> forall s, exists r s', forall r2 s2, means env src s r2 s2 <-> r2 = r /\ s2 = s'.
  Proof.
    intros env src H s. apply (transform_defined Val St Exc true_val name_error call truth items oper) in H. destruct H as [e T].
    pose proof (transform_means _ _ _ true_val name_error call truth items pack oper src e T env env (fun y => eq_refl) s) as E.
    destruct (eval _ _ _ name_error call truth items pack oper env e s) as [r s']. exists r, s'. intros r2 s2. rewrite <- E. split; [intro Q; now inversion Q|now intros [-> ->]].
  Qed.

  (** Without calls of implies, a condition is the Python expression as written. *)
  Fixpoint calls_implies (e : expr) : bool :=
    match e with
    | Name _ _ | Const _ _ => false
    | Call _ f args kw => match f with Name _ x => String.eqb x "implies" | _ => calls_implies f end || existsb calls_implies args || existsb (fun p => calls_implies (snd p)) kw
    | IfExp _ c t e => calls_implies c || calls_implies t || calls_implies e
    | And _ a b | Or _ a b => calls_implies a || calls_implies b
    | Each _ _ o b => calls_implies o || calls_implies b
    | Op _ _ args => existsb calls_implies args
    end.
  Theorem condition_unchanged : forall src, calls_implies src = false -> transform Val true_val src = Some src.
  Proof.
    assert (L : forall l : list expr, Forall (fun e => calls_implies e = false -> transform Val true_val e = Some e) l -> existsb calls_implies l = false ->
       all_some (map (transform Val true_val) l) = Some l).
    { induction 1 as [|a l H _ IH]; intro E; [reflexivity|]. cbn [existsb] in E. apply orb_false_iff in E. cbn [map all_some]. rewrite H, IH by tauto. reflexivity. }
    assert (K : forall l : list (string * expr), Forall (fun e => calls_implies e = false -> transform Val true_val e = Some e) (map snd l) -> existsb (fun p => calls_implies (snd p)) l = false ->
       all_some (map (fun p => match transform Val true_val (snd p) with Some e => Some (fst p, e) | None => None end) l) = Some l).
    { induction l as [|[k a] l IH]; intros H E; [reflexivity|]. cbn [existsb snd map] in *. inversion H; subst. apply orb_false_iff in E. destruct E as [E1 E2].
      cbn [map all_some fst snd]. rewrite H2, IH by assumption. reflexivity. }
    induction src as [x|v|f args kw IHf IHa IHk|c t e IHc IHt IHe|a b IHa IHb|a b IHa IHb|x o b IHo IHb|o args IHa] using expr_ind'; cbn [calls_implies transform]; intro E; try reflexivity.
    - apply orb_false_iff in E. destruct E as [E E3]. apply orb_false_iff in E. destruct E as [E1 E2]. rewrite (L args), (K kw) by assumption.
      destruct f as [x| | | | | | |]; [cbn [transform]; now rewrite E1| | | | | | |]; rewrite IHf by exact E1; reflexivity.
    - apply orb_false_iff in E. destruct E as [E E3]. apply orb_false_iff in E. destruct E as [E1 E2]. now rewrite IHc, IHt, IHe.
    - apply orb_false_iff in E. destruct E as [E1 E2]. now rewrite IHa, IHb.
    - apply orb_false_iff in E. destruct E as [E1 E2]. now rewrite IHa, IHb.
    - apply orb_false_iff in E. destruct E as [E1 E2]. now rewrite IHo, IHb.
    - now rewrite L.
  Qed.
End Properties.

(** A world of labelled values: calling "boom" raises, calling anything else gives "called". *)
Definition w_call (f : string) (args : list string) (kw : list (string * string)) : M unit string string :=
  fun s => if String.eqb f "boom" then (inr "Boom", s) else (inl "called", s).
Definition w_truth (v : string) : M unit string bool := ret _ _ (negb (String.eqb v "False")).
Definition w_items (v : string) : M unit string (list string) := ret _ _ [v].
Definition w_pack (l : list string) : string := "list".
Definition w_oper (o : string) (l : list string) : M unit string string := ret _ _ o.
Definition w_holder (n : names string) : string := "old".
Definition w_pre := precondition string unit string "True" (fun x => x) w_call w_truth w_items w_pack w_oper w_holder.
Definition w_post := postcondition string unit string "True" (fun x => x) w_call w_truth w_items w_pack w_oper w_holder.
Definition w_means := means string unit string "True" (fun x => x) w_call w_truth w_items w_pack w_oper.
Definition none : names string := fun _ => None.
Definition w_func (name : string) (nonlocals : list (string * string)) (globals builtins : names string) : func string :=
  mkFunc _ name "the function" nonlocals globals builtins.

(** implies(x, boom()) with a false x is true and never calls boom. *)
Example precondition_meaning_witness :
  let f := w_func "f" [] (only _ "boom" "boom") none in
  let src := Call _ (Name _ "implies") [Name _ "x"; Call _ (Name _ "boom") [] []] [] in
  implies_ok string false src /\
  (forall x, of_list _ (nonlocals _ f) x = None \/ globals _ f x = None) /\
  option_map (fun m => m tt) (w_pre f (only _ "x" "False") src) = Some (inl "True", tt) /\
  option_map (fun m => m tt) (w_pre f (only _ "x" "1") src) = Some (inr "Boom", tt).
Proof.
  cbv zeta. split; [|split; [now left|split; reflexivity]]. constructor; [intros _; split; [reflexivity|discriminate]|constructor| |constructor].
  repeat constructor; discriminate.
Qed.
(** "_ == x" in the postcondition of a global function with a closure variable. *)
Example postcondition_meaning_witness :
  let f := w_func "f" [("limit", "5")] (only _ "f" "the function") (only _ "len" "builtin len") in
  (forall x, of_list _ (nonlocals _ f) x = None \/ globals _ f x = None) /\
  condition_name _ w_holder f (only _ "x" "1") (only _ "x" "0") (Some "7") "f" = Some "the function" /\
  option_map (fun m => m tt) (w_post f (only _ "x" "1") (only _ "x" "0") "7" (Name _ "_")) = Some (inl "7", tt) /\
  option_map (fun m => m tt) (w_post f (only _ "x" "1") (only _ "x" "0") "7" (Name _ "limit")) = Some (inl "5", tt).
Proof.
  cbv zeta. split; [|repeat split; reflexivity]. intro x. cbn [w_func nonlocals globals]. unfold of_list, only. cbn [find fst]. destruct (String.eqb "limit" x) eqn:E; [|now left]. apply String.eqb_eq in E. subst. now right.
Qed.
Example condition_one_outcome_witness : implies_ok string false (Call _ (Name _ "g") [Name _ "x"] []).
Proof. repeat constructor; discriminate. Qed.
Example condition_unchanged_witness : calls_implies string (Each _ "y" (Name _ "xs") (Op _ "<" [Name _ "y"; Const _ "0"])) = false.
Proof. reflexivity. Qed.

(** A call of implies with keyword arguments is accepted, and they are dropped: here one that would raise. *)
Theorem condition_syntax_refuted : exists f args src m,
  w_pre f args src = Some m /\ ~ implies_ok string true src /\ m tt = (inl "True", tt).
Proof.
  exists (w_func "f" [] none none), (only _ "x" "False"), (Call _ (Name _ "implies") [Name _ "x"; Name _ "x"] [("strict", Name _ "undefined")]). eexists.
  split; [reflexivity|]. split; [|reflexivity]. intro H. inversion H; subst. match goal with N : _ = _ -> _ /\ _ |- _ => destruct (N eq_refl) as [_ K] end. discriminate (K eq_refl).
Qed.
(** In a function inside a function, a variable of the outer function that has the name of a global is not seen:
    the global is. *)
Theorem closure_variable_refuted : exists f args src m,
  args "__old__" = None /\ w_pre f args src = Some m /\ m tt = (inl "global", tt) /\ w_means (condition_name _ w_holder f args args None) src tt (inl "enclosing") tt.
Proof.
  exists (w_func "f" [("limit", "enclosing")] (only _ "limit" "global") none), none, (Name _ "limit"). eexists.
  split; [reflexivity|]. split; [reflexivity|]. split; [reflexivity|]. now apply m_name.
Qed.
(** In the postcondition of a method with the name of a built-in function, the name means the method; and a
    parameter with the function's name is not seen. *)
Theorem function_name_refuted :
  (exists f args src m, w_post f args args "7" src = Some m /\ m tt = (inl "the function", tt) /\
     w_means (condition_name _ w_holder f args args (Some "7")) src tt (inl "builtin len") tt /\ args "len" = None) /\
  (exists f args src m, w_post f args args "7" src = Some m /\ m tt = (inl "the function", tt) /\
     w_means (condition_name _ w_holder f args args (Some "7")) src tt (inl "the argument") tt /\ args (fname _ f) = Some "the argument").
Proof.
  split.
  - exists (w_func "len" [] none (only _ "len" "builtin len")), none, (Name _ "len"). eexists. repeat split. now apply m_name.
  - exists (w_func "value" [] none none), (only _ "value" "the argument"), (Name _ "value"). eexists. repeat split. now apply m_name.
Qed.
(** A function called implies that the module defines itself is not called. *)
Theorem own_implies_refuted : exists f args src m, globals _ f "implies" = Some "their implies" /\ w_pre f args src = Some m /\ m tt = (inl "True", tt) /\
  eval string unit string (fun x => x) w_call w_truth w_items w_pack w_oper (condition_name _ w_holder f args args None) src tt = (inl "called", tt).
Proof.
  exists (w_func "f" [] (only _ "implies" "their implies") none), (only _ "x" "False"), (Call _ (Name _ "implies") [Name _ "x"; Name _ "x"] []). eexists. repeat split.
Qed.

Print Assumptions condition_syntax_partial.
Print Assumptions precondition_meaning_partial.
Print Assumptions postcondition_meaning_partial.
Print Assumptions condition_one_outcome.
Print Assumptions condition_unchanged.
Print Assumptions condition_syntax_refuted.
Print Assumptions closure_variable_refuted.
Print Assumptions function_name_refuted.
Print Assumptions own_implies_refuted.
