(** A concrete instance of the engine, used to show that the hypotheses of the
    theorems in Properties_SearchTree are satisfiable: two boolean inputs and a
    solver that decides by enumeration. *)
From Coq Require Import List Bool ZArith Lia.
From Verif Require Import SearchTree_Model SearchTree_Spec.
Import ListNotations.

Definition xAsg := (bool * bool)%type.
(** Expression [true] is the first input, [false] the second; realizable
    expressions are the same two. *)
Definition xholds (a : xAsg) (e : bool) : bool := if e then fst a else snd a.
Definition xmodels_b (pc : list (lit bool bool bool)) (a : xAsg) : bool :=
  forallb (fun l => match l with
                    | LExpr e b => eqb (xholds a e) b
                    | LVal x v b => eqb (eqb (xholds a x) v) b end) pc.
Definition xall : list xAsg := [(true,true);(true,false);(false,true);(false,false)].
Definition xsat (pc : list (lit bool bool bool)) : satres :=
  if existsb (xmodels_b pc) xall then Sat else Unsat.
Definition xmodel (pc : list (lit bool bool bool)) (x : bool) : bool :=
  match find (xmodels_b pc) xall with Some a => xholds a x | None => true end.

Definition xenv (rnd : bool) : env bool bool bool :=
  mkEnv xsat xmodel (fun _ _ => rnd) (fun _ _ => None).

Lemma xmodels_iff pc a : xmodels_b pc a = true <->
  models xAsg bool bool bool xholds xholds pc a.
Proof.
  unfold xmodels_b, models. induction pc as [|l pc IH]; cbn.
  - split; auto.
  - rewrite andb_true_iff, IH, Forall_cons_iff.
    apply and_iff_compat_r. destruct l as [e b|x v b]; cbn.
    + apply eqb_true_iff.
    + destruct b.
      * rewrite eqb_true_iff. destruct (eqb (xholds a x) v) eqn:E.
        -- apply eqb_prop in E. tauto.
        -- apply eqb_false_iff in E. split; [discriminate|tauto].
      * rewrite eqb_true_iff. destruct (eqb (xholds a x) v) eqn:E.
        -- apply eqb_prop in E. split; [discriminate|tauto].
        -- apply eqb_false_iff in E. tauto.
Qed.

Lemma xall_all a : In a xall.
Proof. destruct a as [[] []]; cbn; auto. Qed.

Lemma xenv_truthful rnd : truthful xAsg bool bool bool xholds xholds (xenv rnd).
Proof.
  assert (S : forall pc, xsat pc = Sat -> exists a, models xAsg bool bool bool xholds xholds pc a /\
            find (xmodels_b pc) xall = Some a).
  { intros pc H. unfold xsat in H. destruct (existsb (xmodels_b pc) xall) eqn:E; [|discriminate].
    destruct (find (xmodels_b pc) xall) as [a|] eqn:F.
    - exists a. split; auto. apply find_some in F as [_ F]. now apply xmodels_iff.
    - apply existsb_exists in E as [a [I M]]. apply find_none with (x := a) in F; auto. congruence. }
  split.
  - intros pc H a M. cbn in H. unfold xsat in H.
    destruct (existsb (xmodels_b pc) xall) eqn:E; [discriminate|].
    assert (existsb (xmodels_b pc) xall = true); [|congruence].
    apply existsb_exists. exists a. split; [apply xall_all | now apply xmodels_iff].
  - intros pc H. destruct (S pc H) as [a [M _]]. eauto.
  - intros pc x H. destruct (S pc H) as [a [M F]]. exists a. split; auto.
    cbn. unfold xmodel. now rewrite F.
Qed.

Definition A_confirmed : analysis := mkA (Some Confirmed) [] None.
Definition A_refuted : analysis := mkA (Some Refuted) [7%Z] None.

(** "Fork on both inputs, realize the first one again; confirmed unless both are
    true, which is excluded by an assumption." *)
Definition xprog_ok (h : list (ans bool)) : action bool bool :=
  match h with
  | [] => AFork true
  | [ABool true] => APossible false
  | [ABool _; ABool true] => AFork false
  | [ABool true; ABool _; ABool true] => ARealize true
  | [ABool false] => ARealize false
  | _ => ADone A_confirmed
  end.

(** Refuted exactly when both inputs are true; the failing path is detached. *)
Definition xprog_bad (h : list (ans bool)) : action bool bool :=
  match h with
  | [] => AFork true
  | [ABool true] => AFork false
  | [ABool true; ABool true] => ADetach
  | [AUnit; ABool true; ABool true] => ARealize true
  | [_] | [_; _] => ADone A_confirmed
  | _ => ADone A_refuted
  end.

(** The same with an assumption and a parallel fork. *)
Definition xprog_par (h : list (ans bool)) : action bool bool :=
  match h with
  | [] => AAssume true
  | [AUnit] => APar
  | [ABool true; AUnit] => AFork false
  | _ => ADone A_confirmed
  end.

Definition xsched : list (nat * env bool bool bool) :=
  map (fun b => (20, xenv b)) [true; false; true; false; true; false; true; false].

Lemma xsched_truthful :
  Forall (fun fe => truthful xAsg bool bool bool xholds xholds (snd fe)) xsched.
Proof. repeat (constructor; [apply xenv_truthful|]). constructor. Qed.

Lemma xprog_ok_detach : detach_ok bool bool bool xprog_ok.
Proof.
  intros h H. exfalso. revert H. unfold xprog_ok.
  destruct h as [|[[]| |] [|[[]| |] [|[[]| |] [|]]]]; discriminate.
Qed.

Lemma xprog_bad_long h : 3 <= length h -> forall r, xprog_bad h = ADone r -> r = A_refuted.
Proof.
  intros L r. unfold xprog_bad.
  destruct h as [|[[]| |] [|[[]| |] [|[[]| |] [|[[]| |] h]]]]; cbn in L; try lia;
    intro H; inversion H; reflexivity.
Qed.

Lemma xprog_bad_detach : detach_ok bool bool bool xprog_bad.
Proof.
  intros h H.
  assert (h = [ABool true; ABool true]).
  { revert H. unfold xprog_bad.
    destruct h as [|[[]| |] [|[[]| |] [|[[]| |] [|[[]| |] h]]]]; try discriminate; auto. }
  subst h. right. intros l r P.
  apply xprog_bad_long in P; [|rewrite app_length; cbn; lia]. subst r.
  intros [G|G]; discriminate.
Qed.

Lemma xprog_bad_assume : assume_ok xAsg bool bool bool xholds xholds xprog_bad.
Proof.
  intros a h e _ H. exfalso. revert H. unfold xprog_bad.
  destruct h as [|[[]| |] [|[[]| |] [|[[]| |] [|[[]| |] h]]]]; discriminate.
Qed.

Lemma xprog_ok_nopar : no_par bool bool bool xprog_ok.
Proof.
  intros h H. revert H. unfold xprog_ok.
  destruct h as [|[[]| |] [|[[]| |] [|[[]| |] [|]]]]; discriminate.
Qed.

Lemma xprog_par_detach : detach_ok bool bool bool xprog_par.
Proof.
  intros h H. exfalso. revert H. unfold xprog_par.
  destruct h as [|[[]| |] [|[[]| |] [|[[]| |] h]]]; discriminate.
Qed.

Lemma xprog_par_assume : assume_ok xAsg bool bool bool xholds xholds xprog_par.
Proof.
  intros a h e _ H. exists (true, true).
  assert (h = [] /\ e = true) as [-> ->].
  { revert H. unfold xprog_par.
    destruct h as [|[[]| |] [|[[]| |] [|[[]| |] h]]]; try discriminate; intro H; inversion H; auto. }
  cbn. auto.
Qed.

Lemma xprog_par_depth : Depth bool bool bool xprog_par 3 [].
Proof.
  apply D_unit; [left; eexists; reflexivity|].
  apply D_bool; [right; left; reflexivity|]. intros [].
  - apply D_bool; [left; eexists; reflexivity|]. intros []; eapply D_done; reflexivity.
  - eapply D_done; reflexivity.
Qed.

(** Forks twice on the same input and realizes it twice. *)
Definition xprog_again (h : list (ans bool)) : action bool bool :=
  match h with
  | [] => AFork true
  | [_] => AFork false
  | [_; _] => AFork true
  | [_; _; _] => ARealize false
  | [_; _; _; _] => ARealize false
  | _ => ADone A_confirmed
  end.

Lemma xprog_again_assume : assume_ok xAsg bool bool bool xholds xholds xprog_again.
Proof.
  intros a h e _ H. exfalso. revert H. unfold xprog_again.
  destruct h as [|? [|? [|? [|? [|? h]]]]]; discriminate.
Qed.
