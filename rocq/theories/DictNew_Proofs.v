From Coq Require Import ZArith List Bool Lia Permutation.
From Verif Require Import Py Map_Model Map_Spec Map_Proofs DictNew_Model DictNew_Spec.
Import ListNotations.
Open Scope Z_scope.

Section P.
  Context {U : Type}.
  Variable eqb : U -> U -> bool.
  Variable eq_dec : forall x y : U, {x = y} + {x <> y}.
  Variable hashable : U -> bool.
  Hypothesis EQ : forall x y, eqb x y = true <-> x = y.
  Notation kv x := (snd (fst x), snd x) (only parsing).

  (** ** the loop *)
  Lemma scan_ok : forall h l keys clash d, sized_hashable hashable h (AIter l) ->
    match scan eqb hashable h l keys clash with
    | Err e => add_pairs eq_dec hashable h l d = Err e
    | Ok (all, c) =>
        add_pairs eq_dec hashable h l d = Ok (d_update eq_dec d (map (fun x => kv x) all)) /\
        arg_keys h (AIter l) = map (fun x => snd (fst x)) all /\
        (forall i k v, In (i, k, v) all -> h i = [k; v]) /\
        (c = false <-> clash = false /\ NoDup (map (fun x => snd (fst x)) all) /\ forall k, In k keys -> ~ In k (map (fun x => snd (fst x)) all))
    end.
  Proof.
    induction l as [|x l IH]; intros keys clash d G.
    - cbn [scan]. split; [reflexivity|]. split; [reflexivity|]. split; [easy|]. split; [intros ->; repeat split; [constructor|easy]|tauto].
    - assert (Gr : sized_hashable hashable h (AIter l)) by (intros y I; apply G; now right).
      specialize (G x (or_introl eq_refl)). destruct x as [i|l0|]; [|easy|reflexivity].
      cbn [scan add_pairs elements arg_keys flat_map] in *. destruct (h i) as [|k [|v [|]]] eqn:Hi; try reflexivity.
      rewrite G. cbn [negb]. specialize (IH (keys ++ [k]) (clash || existsb (eqb k) keys) (d_set eq_dec d k v) Gr).
      destruct (scan _ _ _ _ _ _) as [[all c]|e]; cbn [bind]; [|exact IH].
      destruct IH as (A & K & H & C). split; [exact A|]. split; [cbn [map fst snd]; now rewrite <- K|]. split.
      + intros j k' v' [[= <- <- <-]|I]; auto.
      + rewrite C. cbn [map fst snd]. rewrite orb_false_iff. split.
        * intros ((C1 & C2) & N & D). split; auto. split.
          -- constructor; auto. intros I. apply (D k); auto. apply in_or_app. right. now left.
          -- intros k' I [<-|J].
             ++ rewrite <- not_true_iff_false, existsb_exists in C2. apply C2. exists k. split; auto. now apply EQ.
             ++ apply (D k'); auto. apply in_or_app. now left.
        * intros (-> & N & D). inversion N as [|? ? N1 N2]; subst. split; [|split; [auto|]].
          -- split; auto. rewrite <- not_true_iff_false, existsb_exists. intros (y & I & E). apply EQ in E as <-.
             apply (D k I). now left.
          -- intros k' I J. apply in_app_or in I as [I|[<-|[]]]; [|easy]. apply (D k' I). now right.
  Qed.

  (** ** from the back *)
  Lemma update_value : forall l (d : @Map_Spec.dict U U) k,
    value (d_update eq_dec d l) k = match sd_get eqb (rev l) k with Ok v => Some v | Err _ => value d k end.
  Proof.
    induction l as [|[k0 v0] l IH] using rev_ind; intros d k; [reflexivity|].
    unfold d_update in *. rewrite fold_left_app, rev_app_distr. cbn [fold_left rev app sd_get d_set value].
    rewrite IH, (eqb_dec eqb eq_dec EQ). destruct (eq_dec k k0) as [E|N], (eq_dec k0 k) as [E'|N']; try congruence; reflexivity.
  Qed.
  Lemma add_new_ok : forall l d, NoDup (map fst d) ->
    NoDup (map fst (fold_left (add_new eqb) l d)) /\
    forall k, opt (sd_get eqb (fold_left (add_new eqb) l d) k) = match opt (sd_get eqb d k) with Some v => Some v | None => opt (sd_get eqb l k) end.
  Proof.
    induction l as [|[k0 v0] l IH]; intros d N.
    - split; auto. intros k. cbn. now destruct (opt (sd_get eqb d k)).
    - cbn [fold_left]. assert (N' : NoDup (map fst (add_new eqb d (k0, v0)))).
      { unfold add_new. cbn [fst snd]. destruct (sd_get eqb d k0); auto. apply (nodup_set eqb eq_dec EQ); auto. }
      destruct (IH _ N') as (A & B). split; auto. intros k. rewrite B. unfold add_new. cbn [fst snd sd_get].
      rewrite (eqb_dec eqb eq_dec EQ k0 k). destruct (sd_get eqb d k0) as [w|e] eqn:E.
      + destruct (eq_dec k0 k) as [<-|]; [now rewrite E|easy].
      + rewrite (get_set eqb eq_dec EQ). destruct (eq_dec k k0) as [X0|], (eq_dec k0 k) as [X|]; try congruence; subst; rewrite ?E; reflexivity.
  Qed.

  Lemma d_update_ok : forall l (d : @Map_Spec.dict U U), d_ok d -> d_ok (d_update eq_dec d l).
  Proof. induction l as [|[k v] l IH]; intros d H; cbn; auto. apply IH. now apply dset_ok. Qed.
  Lemma d_empty_ok : d_ok (@d_empty U U).
  Proof. split; [constructor|]. cbn. intuition. Qed.
  Lemma RS_equal : forall s (D D' : @Map_Spec.dict U U), RS eqb s D -> d_ok D' -> d_equal D D' -> RS eqb s D'.
  Proof.
    intros s D D' (N1 & N2 & (O1 & O2) & G & L) (P1 & P2) E. split; [auto|]. split; [auto|]. split; [split; auto|]. split.
    - intros k. now rewrite <- E.
    - rewrite L. f_equal. apply Permutation_length, NoDup_Permutation; auto. intros k. now rewrite O2, P2, E.
  Qed.

  Lemma flat_own : forall h (l : list (U * U)), flat_map (read h) (map (fun x => Own (fst x) (snd x)) l) = l.
  Proof. induction l as [|[k v] l IH]; cbn; auto. now rewrite IH. Qed.
  Lemma flat_shared : forall (h : heap U) all, (forall i k v, In (i, k, v) all -> h i = [k; v]) ->
    flat_map (read h) (map (fun x => Shared (fst (fst x))) all) = map (fun x : nat * U * U => kv x) all.
  Proof.
    induction all as [|[[i k] v] all IH]; intros H; cbn; auto. rewrite (H i k v) by now left. cbn. rewrite IH; auto.
    intros j k' v' I. apply H. now right.
  Qed.

  (** the dictionary without keyword arguments *)
  Lemma entries_ok : forall h a, arg_ok a -> sized_hashable hashable h a ->
    match dict_entries eqb hashable h a with
    | Err e => py_dict eq_dec hashable h a [] = Err e
    | Ok es => exists d, py_dict eq_dec hashable h a [] = Ok d /\ RS eqb (sh_init (flat_map (read h) es)) d /\
        (NoDup (arg_keys h a) -> d = d_of eq_dec (flat_map (read h) es) /\ map fst (flat_map (read h) es) = arg_keys h a)
    end.
  Proof.
    intros h a A G. destruct a as [|l|l|]; cbn [dict_entries].
    - exists d_empty. split; [reflexivity|]. split; [apply (RS_init eqb eq_dec EQ []); constructor|]. split; reflexivity.
    - rewrite flat_own. exists (d_of eq_dec l). split; [reflexivity|]. split; [now apply RS_init|].
      intros _. split; reflexivity.
    - pose proof (scan_ok h l [] false d_empty G) as S. unfold py_dict.
      destruct (scan _ _ _ _ _ _) as [[all c]|e]; cbn [bind]; [|now rewrite S].
      destruct S as (P & K & H & C). rewrite P. cbn [bind d_update fold_left]. eexists. split; [reflexivity|].
      set (l' := map (fun x : nat * U * U => kv x) all) in *.
      assert (F : map (fun x : nat * U * U => snd (fst x)) all = map fst l') by (unfold l'; now rewrite map_map).
      destruct c; cbn [negb].
      + rewrite flat_own. destruct (add_new_ok (rev l') []) as (N & V); [constructor|]. split.
        * eapply RS_equal; [apply RS_init; eauto|apply d_update_ok, d_empty_ok|].
          intros k. rewrite update_value. destruct (R_init eqb eq_dec EQ _ N) as (_ & _ & V').
          rewrite V', V. cbn. destruct (sd_get eqb (rev l') k); reflexivity.
        * intros ND. rewrite K in ND. assert (X : true = false); [|discriminate]. apply C. split; auto. 
      + rewrite flat_shared by auto. fold l'. assert (N : NoDup (map fst l')) by (rewrite <- F; now apply C).
        split; [now apply RS_init|]. intros _. split; [reflexivity|]. rewrite K. auto.
    - reflexivity.
  Qed.
End P.
