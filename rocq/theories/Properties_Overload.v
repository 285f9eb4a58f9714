(* C118: which of several signatures a call is taken to be for. *)
From Coq Require Import String.
From Coq Require Import List Bool Arith Lia.
From Verif Require Import Py Unify_Model Unify_Spec Unify_Proofs Repr_Model Repr_Spec Overload_Model Overload_Spec Overload_Proofs Properties_Unify.
Import ListNotations.

(** C118.  The full claim: of several signatures a call is taken to be for the first one it fits,
    and the body of the function is not skipped if it fits none:

      forall issub sigs a kw, 1 < length sigs -> exists o, first_fitting issub sigs a kw o /\
        match o with
        | Some i => choose issub fuel sigs a kw = Ok (i, true)
        | None => forall i, choose issub fuel sigs a kw <> Ok (i, true)
        end

    Proved if there are only positional arguments, all the signatures take that many, none has
    *args or **kwargs, all parameters are annotated with classes or Any, defaults fit, and no
    value is a tuple or callable.  Refuted for the rest below. *)
Theorem overload_first_partial : forall issub fuel sigs a,
  (forall x y z, issub x y = true -> issub y z = true -> issub x z = true) ->
  1 < length sigs -> Forall (good_sig issub a) sigs -> Forall (ordinary issub) a ->
  exists o, first_fitting issub sigs a [] o /\
    choose issub (S fuel) sigs a [] = Ok (match o with Some i => (i, true) | None => (0, false) end).
Proof.
  intros issub fuel sigs a T L G O.
  destruct (find_from_first issub fuel T sigs a 0 G O) as (o & F & FF). exists o. split; auto.
  unfold choose, find_best_sig. apply Nat.ltb_lt in L. rewrite L. cbn [map]. rewrite app_nil_r, F. cbn [bind].
  assert (N : forall i, i < length sigs -> take_args (map o_param (nth i sigs [])) a [] <> None).
  { intros i I. rewrite Forall_forall in G. destruct (G (nth i sigs [])) as (_ & _ & H & _); auto. now apply nth_In. }
  apply Nat.ltb_lt in L. destruct o as [i|]; cbn [bind].
  - destruct FF as ((ps & E & _) & _). apply (f_equal (fun x => x <> None)) in E.
    assert (I : i < length sigs) by (apply nth_error_Some; rewrite E; easy).
    cbn [Nat.add]. destruct (take_args _ a []) eqn:X; [easy|]. now apply N in X.
  - destruct (take_args _ a []) eqn:X; [easy|]. apply N in X; [easy|lia].
Qed.

(** With type variables, generic classes and unions: what is chosen fits, if there are no keyword
    arguments. *)
Theorem overload_sound_partial : forall issub arity fuel sigs a i,
  (forall x, issub x x = true) -> python_classes issub arity -> 1 < length sigs ->
  Forall plain_sig sigs ->
  (forall ps p t, In ps sigs -> In p ps -> o_ann p = Some t -> unions_ok true t = true /\ sized_tuples t = true /\ written arity t = true) ->
  (forall ps p, In ps sigs -> In p ps -> 2 < o_default p) -> Forall (fun c => 2 < c) a ->
  choose issub fuel sigs a [] = Ok (i, true) -> exists ps, nth_error sigs i = Some ps /\ call_fits issub ps a [].
Proof.
  intros issub arity fuel sigs a i R PC L P A D O E.
  unfold choose, find_best_sig in E. apply Nat.ltb_lt in L. rewrite L in E. cbn [map] in E. rewrite app_nil_r in E.
  destruct (find_from issub fuel 0 sigs a []) as [[j|]|e] eqn:F; cbn [bind] in E; [| |easy].
  2:{ destruct (take_args _ _ _); easy. }
  destruct (take_args (map o_param (nth j sigs [])) a []); [|easy]. injection E as ->.
  apply find_from_some in F as (_ & ps & bs & b & N & T & U). rewrite Nat.sub_0_r in N. exists ps. split; auto.
  assert (I : In ps sigs) by (eapply nth_error_In; eauto).
  assert (Pp : plain_sig ps) by (rewrite Forall_forall in P; auto).
  pose proof (single_of ps a [] bs Pp T) as Si.
  assert (Lb : length bs = length ps) by (apply take_args_length in T; now rewrite map_length in T).
  exists bs, b. split; auto.
  assert (M : forall v r, In (v, r) (combine (value_types ps bs) (map annotation ps)) -> sub issub v (subst b r)).
  { apply (match_sound_partial issub arity fuel (value_types ps bs) (map annotation ps) b); auto.
    - now rewrite value_types_length, map_length.
    - assert (Cv : forall v, In v (value_types ps bs) -> exists c, v = App c [] /\ 2 < c).
      { assert (Ov : forall v, In (Some (One v)) bs -> 2 < v).
        { intros v J. destruct (take_args_from _ _ _ _ T v J) as [K|[]]. rewrite Forall_forall in O. auto. }
        specialize (D ps). assert (Dp : forall p, In p ps -> 2 < o_default p) by auto.
        clear - Si Ov Dp. induction Si as [|p x ps bs S1 Sr IH]; [easy|]. intros v [<-|J].
        - destruct x as [[w| |]|]; cbn in S1; try easy; cbn [value_type].
          + exists w. split; auto. apply Ov. now left.
          + eexists. split; auto. apply Dp. now left.
        - apply IH; auto; intros; [apply Ov|apply Dp]; now right. }
      intros v J. destruct (Cv v J) as (c & -> & Lc). cbn. apply Nat.ltb_lt in Lc. unfold Nat.ltb in Lc. cbn in Lc. rewrite Lc. auto.
    - intros r J. apply in_map_iff in J as (p & <- & J). unfold annotation.
      assert (Pa : o_ann p <> None) by (eapply Forall_forall in Pp; eauto; tauto).
      destruct (o_ann p) as [t|] eqn:Et; [|easy]. eapply A; eauto. }
  clear - Pp Si M. induction Si as [|p x ps bs S1 Sr IH]; constructor.
  - inversion Pp as [|? ? (_ & _ & Pa) Pr]; subst. assert (H := M _ _ (or_introl eq_refl)).
    destruct x as [[w| |]|]; cbn in S1; try easy; cbn [bound_fits]. unfold arg_fits, annotation in *.
    destruct (o_ann p); easy.
  - inversion Pp; subst. apply IH; auto. intros v r J. apply M. now right.
Qed.

Notation par n k t := (OParam (Param n k false) t 5) (only parsing).
Definition pk (n : string) (t : ty) : oparam := par n PosKw (Some t).
(** f(x: int, y: str), f(x: float, y: int = 5), f(x: T, y: T) *)
Definition sigs3 : list (list oparam) :=
  [[pk "x" int_; pk "y" str_]; [pk "x" float_; OParam (Param "y" PosKw true) (Some int_) 5]; [pk "x" Any; pk "y" int_]]%string.
Example sigs3_good : Forall (good_sig some_sub [5; 5]) sigs3 /\ Forall (ordinary some_sub) [5; 5] /\
  choose some_sub 9 sigs3 [5; 5] [] = Ok (2, true) /\ choose some_sub 9 sigs3 [7; 5] [] = Ok (1, true) /\
  choose some_sub 9 sigs3 [7; 6] [] = Ok (0, false).
Proof.
  split; [|split; [|split; [|split]]; try reflexivity].
  - repeat match goal with |- Forall _ _ => constructor end; (split; [|split; [|split]]); try (cbn; discriminate);
      repeat match goal with
             | |- Forall _ _ => constructor
             | |- plain_sig _ => constructor
             | |- class_sig _ => constructor
             end; cbn; try (repeat split; discriminate); try (now left);
      try (right; eexists; split; [reflexivity|lia]); intros; try discriminate; repeat split; lia.
  - repeat constructor.
Qed.
(** f(x: T, y: T) after f(x: str, y: T) *)
Example generic_overload :
  choose some_sub 9 [[pk "x" str_; pk "y" (Var 1)]; [pk "x" (Var 1); pk "y" (Var 1)]]%string [5; 5] [] = Ok (1, true) /\
  choose some_sub 9 [[pk "x" str_; pk "y" (Var 1)]; [pk "x" (Var 1); pk "y" (Var 1)]]%string [5; 7] [] = Ok (0, false).
Proof. split; reflexivity. Qed.

(** The name of a keyword argument is taken for its value: f(x=1) is taken to be for f(x: str). *)
Theorem overload_keyword_refuted : exists sigs a kw i,
  choose some_sub 9 sigs a kw = Ok (i, true) /\
  (forall ps, nth_error sigs i = Some ps -> ~ call_fits some_sub ps a kw) /\
  exists j ps, nth_error sigs j = Some ps /\ call_fits some_sub ps a kw.
Proof.
  exists [[pk "x" int_]; [pk "x" str_]]%string, [], [("x"%string, 5)], 1. split; [reflexivity|]. split.
  - intros ps [= <-] (bs & b & [= <-] & F). inversion F as [|? ? ? ? F1 _]; subst. cbn in F1. unfold arg_fits in F1. cbn in F1.
    inversion F1; discriminate.
  - exists 0. eexists. split; [reflexivity|]. exists [Some (One 5)], []. split; [reflexivity|].
    constructor; [|constructor]. cbn. unfold arg_fits. cbn. now constructor.
Qed.
(** A signature for another number of arguments makes the call fail: f(1, 2) with f(x: int) and
    f(x: int, y: int). *)
Theorem overload_arity_refuted : exists sigs a,
  choose some_sub 9 sigs a [] = Err TypeError /\ exists ps, In ps sigs /\ call_fits some_sub ps a [].
Proof.
  exists [[pk "x" int_]; [pk "x" int_; pk "y" int_]]%string, [5; 5]. split; [reflexivity|].
  eexists. split; [right; left; reflexivity|]. exists [Some (One 5); Some (One 5)], []. split; [reflexivity|].
  repeat constructor; cbn; unfold arg_fits; cbn; try exact I; now constructor.
Qed.
(** A parameter without annotation accepts nothing, and *args: int accepts no integers. *)
Theorem overload_unannotated_refuted : exists sigs a,
  choose some_sub 9 sigs a [] = Ok (0, false) /\ exists ps, In ps sigs /\ call_fits some_sub ps a [].
Proof.
  exists [[pk "self" (App 11 []); pk "x" str_]; [par "self" PosKw None; pk "x" int_]]%string, [11; 5]. split; [reflexivity|].
  eexists. split; [right; left; reflexivity|]. exists [Some (One 11); Some (One 5)], []. split; [reflexivity|].
  repeat constructor; cbn; unfold arg_fits; cbn; try exact I; now constructor.
Qed.
Theorem overload_star_refuted : exists sigs a,
  choose some_sub 9 sigs a [] = Ok (0, false) /\ exists ps, In ps sigs /\ call_fits some_sub ps a [].
Proof.
  exists [[pk "x" int_; pk "y" str_]; [par "args" VarPos (Some int_)]]%string, [5; 5]. split; [reflexivity|].
  eexists. split; [right; left; reflexivity|]. exists [Some (Many [5; 5])], []. split; [reflexivity|].
  constructor; [|constructor]. cbn. repeat constructor; cbn; unfold arg_fits; cbn; now constructor.
Qed.

Print Assumptions overload_first_partial.
Print Assumptions overload_sound_partial.
Print Assumptions overload_keyword_refuted.
Print Assumptions overload_arity_refuted.
Print Assumptions overload_unannotated_refuted.
Print Assumptions overload_star_refuted.
