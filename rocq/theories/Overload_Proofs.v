From Coq Require Import String.
From Coq Require Import List Bool Arith Lia.
From Verif Require Import Py Unify_Model Unify_Spec Unify_Proofs Repr_Model Repr_Spec Overload_Model Overload_Spec.
Import ListNotations.

Lemma take_args_length {A} : forall ps (pos : list A) kw bs, take_args ps pos kw = Some bs -> length bs = length ps.
Proof.
  induction ps as [|p ps IH]; intros pos kw bs E.
  - destruct pos, kw; try easy. injection E as <-. easy.
  - cbn [take_args] in E.
    assert (X : forall x pos kw, match take_args ps pos kw with Some l => Some (x :: l) | None => None end = Some bs ->
                length bs = S (length ps)).
    { intros x q k H. destruct (take_args ps q k) as [l|] eqn:F; [|easy]. injection H as <-. cbn. f_equal. eauto. }
    destruct (p_kind p); repeat match type of E with context [match ?x with _ => _ end] => destruct x eqn:?; try easy end;
      match type of E with Some ?l = Some _ => injection E as <-; cbn; f_equal; eauto end.
Qed.
(** what ordinary parameters get *)
Definition single (p : param) (b : option (bound nat)) : Prop :=
  match b with Some (One _) => True | None => p_default p = true | _ => False end.
Lemma take_args_single : forall ps (pos : list nat) kw bs,
  Forall (fun p => p_kind p <> VarPos /\ p_kind p <> VarKw) ps -> take_args ps pos kw = Some bs -> Forall2 single ps bs.
Proof.
  induction ps as [|p ps IH]; intros pos kw bs F E.
  - destruct pos, kw; try easy. injection E as <-. constructor.
  - inversion F as [|? ? (P1 & P2) Fr]; subst. cbn [take_args] in E.
    destruct (p_kind p) eqn:K; try easy;
    repeat match type of E with context [match ?x with _ => _ end] => destruct x eqn:?; try easy end;
      injection E as <-; constructor; cbn; eauto.
Qed.
(** the values come from the call *)
Lemma kget_in {A} : forall (kw : list (string * A)) n v, kget kw n = Some v -> In v (map snd kw).
Proof.
  induction kw as [|[m w] kw IH]; intros n v E; [easy|]. cbn [kget] in E.
  destruct (String.eqb m n); [injection E as ->; now left|right; eauto].
Qed.
Lemma kdel_incl {A} : forall (kw : list (string * A)) n v, In v (map snd (kdel kw n)) -> In v (map snd kw).
Proof.
  intros kw n v I. apply in_map_iff in I as ((m & w) & <- & I). apply filter_In in I as (I & _).
  apply in_map_iff. eexists; eauto.
Qed.
Lemma take_args_from {A} : forall ps (pos : list A) kw bs, take_args ps pos kw = Some bs ->
  forall v, In (Some (One v)) bs -> In v pos \/ In v (map snd kw).
Proof.
  induction ps as [|p ps IH]; intros pos kw bs E v I.
  - destruct pos, kw; try easy. injection E as <-. easy.
  - cbn [take_args] in E.
    destruct (p_kind p) eqn:K;
    repeat match type of E with context [match ?x with _ => _ end] => destruct x eqn:?; try easy end;
      injection E as <-; destruct I as [I|I]; try discriminate;
      try (injection I as <-; cbn; eauto using kget_in; fail);
      match goal with H : take_args ps _ _ = Some _ |- _ => destruct (IH _ _ _ H v I) as [J|J] end; cbn in *;
      eauto using kdel_incl; easy.
Qed.

Lemma value_types_length : forall ps bs, length bs = length ps -> length (value_types ps bs) = length ps.
Proof. induction ps as [|p ps IH]; intros [|b bs] L; cbn in *; try lia. rewrite IH; lia. Qed.

Section Sound.
  Variable issub : nat -> nat -> bool.
  Variable fuel : nat.

  Lemma find_from_some : forall sigs i a kw j, find_from issub fuel i sigs a kw = Ok (Some j) ->
    i <= j /\ exists ps bs b, nth_error sigs (j - i) = Some ps /\ take_args (map o_param ps) a kw = Some bs /\
      unify_list (unify issub fuel) [] (value_types ps bs) (map annotation ps) = Ok (Some b).
  Proof.
    induction sigs as [|ps sigs IH]; intros i a kw j E; [easy|]. cbn [find_from] in E.
    destruct (take_args (map o_param ps) a kw) as [bs|] eqn:T; [|easy].
    destruct (unify_list _ _ _ _) as [[b|]|e] eqn:U; cbn [bind] in E; [|apply IH in E|easy].
    - injection E as <-. split; [lia|]. rewrite Nat.sub_diag. cbn. eauto 6.
    - destruct E as (L & ps' & bs' & b & N & R). split; [lia|]. exists ps', bs', b.
      replace (j - i) with (S (j - S i)) by lia. auto.
  Qed.

  (** classes only *)
  Definition one_fits (c : nat) (p : oparam) : bool :=
    match o_ann p with Some (App d []) => issub c d | _ => true end.
  Lemma unify_class : forall b c d, 2 < c -> 2 < d -> issub c ccallable = false -> (issub c d = true -> issub d ccallable = false) ->
    forall f, unify issub (S f) b (App c []) (App d []) = Ok (if issub c d then Some b else None).
  Proof.
    intros b c d C D NC ND f. cbn [unify]. unfold unify_step. cbn [Unify_Model.get]. unfold unify_from_tuple, unify_to_tuple, unify_classes. cbn [origin].
    replace (Nat.eqb c ctuple) with false by (symmetry; apply Nat.eqb_neq; unfold ctuple; lia). cbn [andb].
    replace (Nat.eqb d ctuple) with false by (symmetry; apply Nat.eqb_neq; unfold ctuple; lia). cbn [andb].
    cbn [issubclass bind]. destruct (issub c d) eqn:E; cbn [negb]; [|reflexivity].
    cbn [issubclass bind]. rewrite ND by easy. cbn [args_of]. rewrite NC, ND by easy. reflexivity.
  Qed.
  Lemma unify_to_any : forall b v f, (forall n, v <> Var n) -> unify issub (S f) b v Any = Ok (Some b).
  Proof. intros b [] f N; try reflexivity. destruct (N n). easy. Qed.
End Sound.

Section Exact.
  Variable issub : nat -> nat -> bool.
  Variable fuel : nat.
  Hypothesis T : forall a b c, issub a b = true -> issub b c = true -> issub a c = true.
  (** an ordinary value: not a bare object, a tuple or a function *)
  Definition ordinary (c : nat) : Prop := 2 < c /\ issub c ccallable = false.

  Definition fits1 (p : oparam) (x : option (bound nat)) : bool :=
    match x with Some (One c) => one_fits issub c p | _ => one_fits issub (o_default p) p end.
  Lemma unify_classes_list : forall ps bs b, class_sig ps ->
    Forall2 (fun p x => single (o_param p) x) ps bs ->
    (forall v, In (Some (One v)) bs -> ordinary v) -> Forall (fun p => p_default (o_param p) = true -> ordinary (o_default p)) ps ->
    unify_list (unify issub (S fuel)) b (value_types ps bs) (map annotation ps) =
      Ok (if forallb (fun px => fits1 (fst px) (snd px)) (combine ps bs) then Some b else None).
  Proof.
    induction ps as [|p ps IH]; intros bs b C F O D; inversion F as [|? x ? xs S1 Fr]; subst; [reflexivity|].
    inversion C as [|? ? C1 Cr]; subst. inversion D as [|? ? D1 Dr]; subst.
    cbn [value_types map unify_list combine forallb fst snd].
    assert (X : exists c, value_type p x = App c [] /\ ordinary c /\ fits1 p x = one_fits issub c p).
    { destruct x as [[v| |]|]; cbn in S1; try easy; cbn [value_type fits1].
      - exists v. split; [easy|]. split; [apply O; now left|easy].
      - eexists. split; [easy|]. split; [auto|easy]. }
    destruct X as (c & -> & (Oc & Nc) & ->).
    assert (U : unify issub (S fuel) b (App c []) (annotation p) = Ok (if one_fits issub c p then Some b else None)).
    { unfold annotation, one_fits. destruct C1 as [->|(d & -> & Ld)]; [reflexivity|].
      apply unify_class; auto. intros E. destruct (issub d ccallable) eqn:N; [|easy]. now rewrite (T _ _ _ E N) in Nc. }
    rewrite U. cbn [bind]. destruct (one_fits issub c p); cbn [andb]; [|easy].
    apply IH; auto. intros v I. apply O. now right.
  Qed.
  Lemma fits1_spec : forall p x b, o_ann p = Some Any \/ (exists c, o_ann p = Some (App c []) /\ 2 < c) -> single (o_param p) x ->
    (p_default (o_param p) = true -> one_fits issub (o_default p) p = true) ->
    (fits1 p x = true <-> bound_fits issub b p x).
  Proof.
    intros p x b C S1 D. destruct x as [[v| |]|]; cbn in S1; try easy; cbn [fits1 bound_fits].
    - unfold arg_fits, one_fits. destruct C as [->|(c & -> & _)].
      + split; auto. intros _. constructor.
      + cbn [subst map]. split; [intros E; now constructor|]. intros H. inversion H; subst; easy.
    - split; auto.
  Qed.
  Lemma all_fit : forall ps bs b, class_sig ps -> Forall2 (fun p x => single (o_param p) x) ps bs ->
    Forall (fun p => p_default (o_param p) = true -> one_fits issub (o_default p) p = true) ps ->
    (forallb (fun px => fits1 (fst px) (snd px)) (combine ps bs) = true <-> Forall2 (bound_fits issub b) ps bs).
  Proof.
    induction ps as [|p ps IH]; intros bs b C F D; inversion F as [|? x ? xs S1 Fr]; subst.
    - split; [constructor|reflexivity].
    - inversion C as [|? ? C1 Cr]; subst. inversion D as [|? ? D1 Dr]; subst. cbn [combine forallb fst snd].
      rewrite andb_true_iff, (fits1_spec p x b C1 S1 D1), (IH xs b Cr Fr Dr).
      split; [intros []; now constructor|]. intros H. inversion H; subst. auto.
  Qed.

  (** a signature the theorem is about *)
  Definition good_sig (a : list nat) (ps : list oparam) : Prop :=
    plain_sig ps /\ class_sig ps /\ take_args (map o_param ps) a [] <> None /\
    Forall (fun p => p_default (o_param p) = true -> ordinary (o_default p) /\ one_fits issub (o_default p) p = true) ps.

  Lemma single_of : forall ps a kw bs, plain_sig ps -> take_args (map o_param ps) a kw = Some bs ->
    Forall2 (fun p x => single (o_param p) x) ps bs.
  Proof.
    intros ps a kw bs P E. apply take_args_single in E.
    - revert bs E. clear - ps. induction ps as [|p ps IH]; intros bs E; inversion E; subst; constructor; auto.
    - apply Forall_forall. intros p I. apply in_map_iff in I as (q & <- & I). eapply Forall_forall in P; eauto. tauto.
  Qed.
  Lemma good_sig_step : forall a ps, good_sig a ps -> Forall ordinary a -> exists bs r,
    take_args (map o_param ps) a [] = Some bs /\
    unify_list (unify issub (S fuel)) [] (value_types ps bs) (map annotation ps) = Ok r /\
    (r <> None <-> call_fits issub ps a []).
  Proof.
    intros a ps (P & C & N & D) O. destruct (take_args (map o_param ps) a []) as [bs|] eqn:E; [|easy].
    exists bs. eexists. split; [easy|]. pose proof (single_of _ _ _ _ P E) as Si.
    assert (Ov : forall v, In (Some (One v)) bs -> ordinary v).
    { intros v I. destruct (take_args_from _ _ _ _ E v I) as [J|[]]. rewrite Forall_forall in O. auto. }
    split.
    - apply unify_classes_list; auto. eapply Forall_impl; [|exact D]. cbn. intros p H I. now apply H.
    - assert (D' : Forall (fun p => p_default (o_param p) = true -> one_fits issub (o_default p) p = true) ps).
      { eapply Forall_impl; [|exact D]. cbn. intros p H I. now apply H. }
      split.
      + intros X. exists bs, []. split; [easy|]. apply all_fit; auto.
        destruct (forallb _ _); [easy|]. destruct X; easy.
      + intros (bs' & b & E' & F). rewrite E in E'. injection E' as <-. apply (all_fit ps bs b C Si D') in F. now rewrite F.
  Qed.
  Lemma find_from_first : forall sigs a i, Forall (good_sig a) sigs -> Forall ordinary a ->
    exists o, find_from issub (S fuel) i sigs a [] = Ok (match o with Some j => Some (i + j) | None => None end) /\
      first_fitting issub sigs a [] o.
  Proof.
    induction sigs as [|ps sigs IH]; intros a i G O.
    - exists None. split; [easy|]. intros ps [].
    - inversion G as [|? ? G1 Gr]; subst. cbn [find_from].
      destruct (good_sig_step a ps G1 O) as (bs & r & E & U & S1). rewrite E, U. cbn [bind]. destruct r as [b|].
      + exists (Some 0). rewrite Nat.add_0_r. split; [easy|]. cbn. split; [|intros; lia].
        exists ps. split; auto. apply S1. easy.
      + destruct (IH a (S i) Gr O) as (o & F & FF).
        assert (NF : ~ call_fits issub ps a []) by (intros H; now apply S1 in H).
        destruct o as [j|].
        * exists (Some (S j)). rewrite F. split; [do 2 f_equal; lia|]. destruct FF as (H & K). split; [exact H|].
          intros [|k] qs L N; cbn in N; [injection N as <-; easy|]. apply (K k); auto. lia.
        * exists None. split; [easy|]. intros qs [<-|I]; auto.
  Qed.
End Exact.
