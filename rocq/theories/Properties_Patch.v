(* C113: layers of replacements of functions. *)
From Coq Require Import List Bool Arith Lia.
From Verif Require Import Patch_Model Patch_Spec Patch_Proofs.
Import ListNotations.

(** C113.  The full claim: whatever replacements are made and undone in any order that undoes
    what is on top, nothing fails and every call goes where the layers say.  Proved if the
    replacements of one function that are in force together have different code. *)
Theorem calls_follow_layers_partial : forall code ops,
  history code none ops ->
  exists m, run code empty ops = Some m /\ forall c f, called m c f = goes_to code (after none ops) c f.
Proof.
  intros code ops H. destruct (run_ok code ops empty none (inv_empty code) H) as (m & E & I).
  exists m. split; auto. intros c f. now apply called_ok.
Qed.
(** Making and undoing replacements leaves every call as it was. *)
Theorem undone_patches_leave_no_trace : forall code ops l,
  history code none ops -> NoDup (map fst l) -> fresh code (after none ops) l ->
  exists m m2, run code empty ops = Some m /\ run code empty (ops ++ [Add l; Pop l]) = Some m2 /\
    forall c f, called m2 c f = called m c f.
Proof.
  intros code ops l H N F. destruct (run_ok code ops empty none (inv_empty code) H) as (m & E & I).
  destruct (add_ok code l m _ I F) as (m1 & E1 & I1).
  destruct (pop_ok code l m1 _ I1 (on_top_pushes l _ N)) as (m2 & E2 & I2).
  exists m, m2. split; auto. split.
  - assert (A : forall ops m0, run code m0 ops = Some m -> run code m0 (ops ++ [Add l; Pop l]) = Some m2).
    { clear - E1 E2. induction ops as [|[k|k] ops IH]; intros m0; cbn.
      - intros [= ->]. rewrite E1. now rewrite E2.
      - destruct (add code m0 k); [apply IH|easy].
      - destruct (pop code m0 k); [apply IH|easy]. }
    now apply A.
  - intros c f. rewrite (called_ok code m2 _ c f I2), (called_ok code m _ c f I). unfold goes_to.
    now rewrite drops_pushes.
Qed.
(** The layers: a call from elsewhere goes to the last replacement, from it to the one before,
    and so on to the function itself. *)
Example layers_example : let code f := f in let ops := [Add [(1, 11); (2, 12)]; Add [(1, 21)]; Add [(1, 31)]; Pop [(1, 31)]] in
  history code none ops /\
  map (fun c => goes_to code (after none ops) c 1) [5; 21; 11; 12; 31] = [21; 11; 1; 21; 21].
Proof. cbn. repeat split; try lia; intuition lia. Qed.

(** Two replacements made by one factory share their code: the inner one calls itself forever,
    and the second cannot be undone. *)
Theorem same_code_refuted : exists code f g1 g2 m, g1 <> g2 /\ f <> g1 /\ f <> g2 /\
  run code empty [Add [(f, g1)]; Add [(f, g2)]] = Some m /\
  called m (code g1) f = g1 /\
  run code empty [Add [(f, g1)]; Add [(f, g2)]; Pop [(f, g2)]; Pop [(f, g1)]] = None.
Proof. exists (fun _ => 0), 1, 2, 3. eexists. repeat split; try lia. Qed.

Print Assumptions calls_follow_layers_partial.
Print Assumptions undone_patches_leave_no_trace.
Print Assumptions same_code_refuted.
