(* Symbolic dictionaries and frozensets behave like Python's. *)
From Coq Require Import ZArith List Bool Lia.
From Verif Require Import SymMap_Model SymMap_Spec SymMap_Proofs.
Import ListNotations.
Local Open Scope Z_scope.

Section Properties.
  Variables (K V : Type).
  Variable keqb : K -> K -> bool.
  Variable veqb : V -> V -> bool.
  Variable covered : list K -> bool.
  Hypothesis Sorts : proper_sorts K V keqb veqb covered.

  Notation admissible := (admissible K V keqb veqb covered).
  Notation represents := (represents K V keqb).
  Notation dict_step := (dict_step K V keqb veqb covered).
  Notation set_step := (set_step K V keqb veqb covered).
  Notation dict_consistent := (dict_consistent K V keqb veqb covered).
  Notation set_consistent := (set_consistent K V keqb veqb covered).
  Notation proper := (Forall (proper_op K V)).

  Let KE := proj1 Sorts.
  Let VE := proj1 (proj2 Sorts).
  Let CV := proj2 (proj2 Sorts).

  Lemma admissible_len arr len : admissible arr len = true -> 0 <= len.
  Proof. unfold SymMap_Model.admissible. intros H. apply andb_true_iff in H. lia. Qed.

  Lemma complete_represents arr len cf : complete K V keqb arr len cf ->
    represents arr len (items_of K V keqb arr cf).
  Proof.
    intros C. split; [|split].
    - eapply items_nodup; eauto.
    - eapply items_len; eauto.
    - apply lookup_items; auto. destruct C as (_ & _ & C). exact C.
  Qed.

  (** * C106 *)
  (** Whatever a program does with a symbolic dictionary, on every path that is not given up
      and for every assignment of the path, it sees one Python dictionary. *)
  Theorem C106_dictionary_sound_s :
    forall arr len fresh p answers st, admissible arr len = true -> proper p ->
      run K V (dict_step arr len fresh) p (start K V) = Finished answers st ->
      dict_consistent arr len fresh st = true ->
      exists l, represents arr len l /\
                answers = py_run K V (py_dict K V keqb veqb l) p [].
  Proof.
    intros arr len fresh p answers st A W R C.
    pose proof (admissible_len _ _ A) as L0.
    pose proof (stinv_start K V keqb arr len L0) as I0.
    destruct (run_ok K V keqb arr len _ (py_dict K V keqb veqb)
                (fun o st a st' => dict_step_ok K V keqb veqb covered KE VE CV arr len fresh o st a st')
                p _ _ _ I0 W R) as (I & P & Q).
    destruct (dict_complete_order K V keqb veqb covered KE VE CV arr len fresh st I C) as (cf & P' & CF).
    exists (items_of K V keqb arr cf). split; [now apply complete_represents|].
    symmetry. apply (Q cf P' CF).
  Qed.

  Definition array_of (l : list (K * V)) : array K V := Arr None (map (fun kv => (fst kv, Some (snd kv))) l).
  Lemma select_array_of l k : select K V keqb (array_of l) k = lookup K V keqb l k.
  Proof.
    unfold select, array_of. cbn. induction l as [|[j v] l IH]; cbn; auto.
    destruct (keqb j k); auto.
  Qed.

  Lemma array_of_complete l : NoDup (map fst l) ->
    complete K V keqb (array_of l) (Z.of_nat (length l)) (map fst l).
  Proof.
    intros N. split; auto. split; [now rewrite map_length|]. intros k. rewrite select_array_of. split.
    - intros I. destruct (lookup_key K V keqb KE l k I) as (v & ->). easy.
    - destruct (lookup K V keqb l k) eqn:E; [|easy]. intros _.
      apply (lookup_in K V keqb KE) in E. apply in_map_iff. eexists. split; [|exact E]. reflexivity.
  Qed.

  Lemma array_of_items l : NoDup (map fst l) -> items_of K V keqb (array_of l) (map fst l) = l.
  Proof.
    intros N.
    assert (G : forall r, (forall k v, In (k, v) r -> select K V keqb (array_of l) k = Some v) ->
                items_of K V keqb (array_of l) (map fst r) = r).
    { induction r as [|[k v] r IH]; cbn; auto. intros H. rewrite (H k v); auto. cbn. f_equal. auto. }
    apply G. intros k v I. rewrite select_array_of. clear - N I KE.
    induction l as [|[j w] l IH]; cbn in *; [easy|]. inversion N as [|? ? N1 N2]; subst.
    destruct I as [I|I].
    - injection I as -> ->. assert (X : keqb k k = true) by now apply KE. now rewrite X.
    - destruct (keqb j k) eqn:E; [|auto]. apply KE in E. subst j. exfalso. apply N1.
      apply in_map_iff. exists (k, v). auto.
  Qed.

  Lemma array_of_admissible l : admissible (array_of l) (Z.of_nat (length l)) = true.
  Proof.
    unfold SymMap_Model.admissible. apply andb_true_iff. split; [lia|].
    apply Bool.eqb_true_iff. destruct l as [|[k v] l].
    - cbn [length]. apply (is_empty K V keqb veqb covered KE VE CV). intros k. reflexivity.
    - destruct (arr_eqb K V keqb veqb covered _ _) eqn:E.
      + pose proof (proj1 (is_empty K V keqb veqb covered KE VE CV _) E k) as X. rewrite select_array_of in X.
        cbn in X. assert (Y : keqb k k = true) by now apply KE. rewrite Y in X. easy.
      + cbn. lia.
  Qed.

  Lemma fresh_nth (cf : list K) k0 i k : nth_error cf i = Some k -> nth i cf k0 = k.
  Proof. intros H. apply nth_error_nth. exact H. Qed.

  (** Conversely, for every Python dictionary, in any order of its items, there is an
      assignment with which no program is ever cut short, and every program sees that
      dictionary. *)
  Theorem C106_dictionary_complete_s :
    forall (k0 : K) l, NoDup (map fst l) ->
      exists arr len fresh, admissible arr len = true /\
        forall p, proper p -> exists st,
          run K V (dict_step arr len fresh) p (start K V) =
            Finished (py_run K V (py_dict K V keqb veqb l) p []) st /\
          dict_consistent arr len fresh st = true.
  Proof.
    intros k0 l N. exists (array_of l), (Z.of_nat (length l)), (fun _ i => nth i (map fst l) k0).
    split; [apply array_of_admissible|]. intros p W.
    pose proof (array_of_complete l N) as CF.
    set (arr := array_of l) in *. set (len := Z.of_nat (length l)) in *.
    set (fresh := fun (_ i : nat) => nth i (map fst l) k0).
    assert (Fr : forall u i k, nth_error (map fst l) i = Some k -> fresh u i = k).
    { intros u i k H. apply (fresh_nth _ k0 _ _ H). }
    pose proof (good_start K V keqb covered CV arr len _ CF) as G0.
    destruct (run_goes K V keqb arr len (map fst l) (dict_step arr len fresh) (py_dict K V keqb veqb)
                (fun o st a st' => dict_step_ok K V keqb veqb covered KE VE CV arr len fresh o st a st')
                (fun o st => dict_step_goes K V keqb veqb covered KE VE CV arr len fresh (map fst l) CF Fr o st)
                p _ G0 W) as (answers & st & R & G).
    exists st. split.
    - rewrite R. f_equal.
      destruct (run_ok K V keqb arr len _ (py_dict K V keqb veqb)
                  (fun o st a st' => dict_step_ok K V keqb veqb covered KE VE CV arr len fresh o st a st')
                  p _ _ _ (proj1 G0) W R) as (_ & _ & Q).
      specialize (Q _ (proj2 G) CF). unfold arr in Q. rewrite (array_of_items l N) in Q. now symmetry.
    - unfold SymMap_Model.dict_consistent.
      destruct (all_goes K V keqb covered KE CV arr len fresh (map fst l) CF Fr
                  (dict_next K V keqb veqb covered len fresh)
                  (dict_next_ok K V keqb veqb covered KE VE CV arr len fresh)
                  (dict_next_goes K V keqb veqb covered KE VE CV arr len fresh (map fst l) CF Fr)
                  (sh st) (proj1 (proj1 G)) (proj2 G)) as (r & s' & ->).
      reflexivity.
  Qed.

  (** * C107: frozensets; the values carry nothing *)
  Hypothesis Unit : forall a b : V, a = b.

  Theorem C107_frozenset_sound_s :
    forall arr len fresh item present p answers st, admissible arr len = true -> proper p ->
      run K V (set_step arr len fresh) p (start K V) = Finished answers st ->
      set_consistent arr len item present = true ->
      exists l, represents arr len l /\
                answers = py_run K V (py_set K V keqb veqb l) p [].
  Proof.
    intros arr len fresh item present p answers st A W R C.
    pose proof (admissible_len _ _ A) as L0.
    pose proof (stinv_start K V keqb arr len L0) as I0.
    destruct (run_ok K V keqb arr len _ (py_set K V keqb veqb)
                (fun o st a st' => set_step_ok K V keqb veqb covered KE VE CV arr len fresh o st a st' Unit)
                p _ _ _ I0 W R) as (I & P & Q).
    destruct (set_complete_order K V keqb veqb covered KE VE CV arr len item present st L0 I C) as (cf & P' & CF).
    exists (items_of K V keqb arr cf). split; [now apply complete_represents|].
    symmetry. apply (Q cf P' CF).
  Qed.

  Theorem C107_frozenset_complete_s :
    forall (k0 : K) (present : V) l, NoDup (map fst l) ->
      exists arr len fresh item, admissible arr len = true /\
        set_consistent arr len item present = true /\
        forall p, proper p -> exists st,
          run K V (set_step arr len fresh) p (start K V) =
            Finished (py_run K V (py_set K V keqb veqb l) p []) st.
  Proof.
    intros k0 present l N.
    exists (array_of l), (Z.of_nat (length l)), (fun _ i => nth i (map fst l) k0),
      (fun i => nth i (map fst l) k0).
    split; [apply array_of_admissible|].
    pose proof (array_of_complete l N) as CF.
    split.
    - unfold SymMap_Model.set_consistent.
      assert (IT : items K (Z.of_nat (length l)) (fun i => nth i (map fst l) k0) = map fst l).
      { unfold items. rewrite Nat2Z.id. rewrite <- (map_length fst l). generalize (map fst l). clear.
        induction l as [|x l IH]; cbn; auto. f_equal. rewrite <- seq_shift, map_map. exact IH. }
      rewrite IT. apply andb_true_iff. split; [now apply (distinct_nodup K keqb KE)|].
      apply (arr_eqb_spec K V keqb veqb covered KE VE CV). intros k. rewrite (select_stores K V keqb KE).
      destruct (existsb (keqb k) (map fst l)) eqn:M.
      + apply (memk_in K keqb KE) in M. rewrite select_array_of.
        destruct (lookup_key K V keqb KE l k M) as (v & ->). f_equal. apply Unit.
      + destruct CF as (_ & _ & C3). destruct (select K V keqb (array_of l) k) eqn:E; auto.
        exfalso. apply (memk_not K keqb KE) in M. apply M, C3. congruence.
    - intros p W.
      set (arr := array_of l) in *. set (len := Z.of_nat (length l)) in *.
      set (fresh := fun (_ i : nat) => nth i (map fst l) k0).
      assert (Fr : forall u i k, nth_error (map fst l) i = Some k -> fresh u i = k).
      { intros u i k H. apply (fresh_nth _ k0 _ _ H). }
      pose proof (good_start K V keqb covered CV arr len _ CF) as G0.
      destruct (run_goes K V keqb arr len (map fst l) (set_step arr len fresh) (py_set K V keqb veqb)
                  (fun o st a st' => set_step_ok K V keqb veqb covered KE VE CV arr len fresh o st a st' Unit)
                  (fun o st => set_step_goes K V keqb veqb covered KE VE CV arr len fresh (map fst l) CF Fr o st)
                  p _ G0 W) as (answers & st & R & G).
      exists st. rewrite R. f_equal.
      destruct (run_ok K V keqb arr len _ (py_set K V keqb veqb)
                  (fun o st a st' => set_step_ok K V keqb veqb covered KE VE CV arr len fresh o st a st' Unit)
                  p _ _ _ (proj1 G0) W R) as (_ & _ & Q).
      specialize (Q _ (proj2 G) CF). unfold arr in Q. rewrite (array_of_items l N) in Q. now symmetry.
  Qed.
End Properties.

Section Equality.
  Variables (K V : Type).
  Variable keqb : K -> K -> bool.
  Variable veqb : V -> V -> bool.
  Variable covered : list K -> bool.
  Hypothesis Sorts : proper_sorts K V keqb veqb covered.
  Notation represents := (represents K V keqb).
  Notation lookup := (lookup K V keqb).
  Notation same_dict := (same_dict K V keqb veqb).
  Let KE := proj1 Sorts.
  Let VE := proj1 (proj2 Sorts).
  Let CV := proj2 (proj2 Sorts).

  Lemma lookup_nodup l k v : NoDup (map fst l) -> In (k, v) l -> lookup l k = Some v.
  Proof.
    intros N I. induction l as [|[j w] l IH]; cbn in *; [easy|]. inversion N as [|? ? N1 N2]; subst.
    destruct I as [I|I].
    - injection I as -> ->. assert (X : keqb k k = true) by now apply KE. now rewrite X.
    - destruct (keqb j k) eqn:E; [|auto]. apply KE in E. subst j. exfalso. apply N1.
      apply in_map_iff. exists (k, v). auto.
  Qed.

  Lemma sub_lookup a b : NoDup (map fst a) ->
    sub_dict K V keqb veqb a b = true <-> forall k v, lookup a k = Some v -> lookup b k = Some v.
  Proof.
    intros N. unfold sub_dict. rewrite forallb_forall. split.
    - intros H k v E. apply (lookup_in K V keqb KE) in E. specialize (H _ E). cbn in H.
      destruct (lookup b k) eqn:F; [|easy]. apply VE in H. congruence.
    - intros H [k v] I. cbn. rewrite (H k v (lookup_nodup _ _ _ N I)). now apply VE.
  Qed.

  Lemma same_lookup a b : NoDup (map fst a) -> NoDup (map fst b) ->
    same_dict a b = true <-> forall k, lookup a k = lookup b k.
  Proof.
    intros Na Nb. unfold SymMap_Spec.same_dict. rewrite andb_true_iff, !sub_lookup by auto. split.
    - intros (H1 & H2) k. destruct (lookup a k) eqn:E; [now rewrite (H1 _ _ E)|].
      destruct (lookup b k) eqn:F; auto. rewrite (H2 _ _ F) in E. easy.
    - intros H. split; intros k v; rewrite H; auto.
  Qed.

  Lemma same_length a b : NoDup (map fst a) -> NoDup (map fst b) -> same_dict a b = true ->
    length a = length b.
  Proof.
    intros Na Nb H. rewrite (same_by_length K V keqb veqb KE VE a b Na Nb) in H.
    apply andb_true_iff in H. lia.
  Qed.

  (** * C108: equality of two symbolic ones, and with a concrete one, as one formula *)
  Theorem C108_equality_s :
    forall a1 n1 l1 a2 n2 l2, represents a1 n1 l1 -> represents a2 n2 l2 ->
      both_eq K V keqb veqb covered a1 n1 a2 n2 = same_dict l1 l2.
  Proof.
    intros a1 n1 l1 a2 n2 l2 (N1 & L1 & R1) (N2 & L2 & R2). unfold both_eq.
    assert (X : arr_eqb K V keqb veqb covered a1 a2 = true <-> same_dict l1 l2 = true).
    { rewrite (arr_eqb_spec K V keqb veqb covered KE VE CV), same_lookup by auto.
      split; intros H k; [rewrite R1, R2; auto | rewrite <- R1, <- R2; auto]. }
    destruct (same_dict l1 l2) eqn:E.
    - pose proof (same_length _ _ N1 N2 E) as L. destruct X as (_ & X). rewrite X by auto.
      apply andb_true_iff. split; auto. lia.
    - destruct (arr_eqb K V keqb veqb covered a1 a2); [|apply andb_false_r].
      destruct X as (X & _). specialize (X eq_refl). discriminate.
  Qed.

  Theorem C108_unification_s :
    forall arr n l o, represents arr n l -> NoDup (map fst o) ->
      unifies K V keqb veqb covered arr n o = same_dict l o.
  Proof.
    intros arr n l o (N1 & L1 & R1) N2. unfold unifies.
    assert (ST : forall ps a k, NoDup (map fst ps) ->
              select K V keqb (fold_left (fun a kv => store K V a (fst kv) (Some (snd kv))) ps a) k =
              match lookup ps k with Some v => Some v | None => select K V keqb a k end).
    { clear - KE. induction ps as [|[j v] ps IH]; intros a k N; cbn; auto.
      inversion N as [|? ? Nj Nr]; subst. rewrite IH by auto.
      rewrite (select_store K V keqb). destruct (keqb j k) eqn:E; auto.
      apply KE in E. subst j. destruct (lookup ps k) eqn:F; auto.
      exfalso. apply Nj. apply (lookup_in K V keqb KE) in F. apply in_map_iff. eexists. split; [|exact F]. reflexivity. }
    assert (X : arr_eqb K V keqb veqb covered
                  (fold_left (fun a kv => store K V a (fst kv) (Some (snd kv))) o empty) arr = true
                <-> same_dict l o = true).
    { rewrite (arr_eqb_spec K V keqb veqb covered KE VE CV), same_lookup by auto.
      split; intros H k.
      - rewrite R1, <- H, ST by auto. cbn. destruct (lookup o k); auto.
      - rewrite ST by auto. cbn. rewrite <- R1, H. destruct (lookup o k); auto. }
    destruct (same_dict l o) eqn:E.
    - pose proof (same_length _ _ N1 N2 E) as L. destruct X as (_ & X). rewrite X by auto.
      apply andb_true_iff. split; auto. lia.
    - destruct (arr_eqb K V keqb veqb covered _ arr); [|apply andb_false_r].
      destruct X as (X & _). specialize (X eq_refl). discriminate.
  Qed.
End Equality.

(** ** The statements *)
Theorem C106_dictionary_sound :
  forall (K V : Type) keqb veqb covered, proper_sorts K V keqb veqb covered ->
  forall arr len fresh p answers st,
    admissible K V keqb veqb covered arr len = true -> Forall (proper_op K V) p ->
    run K V (dict_step K V keqb veqb covered arr len fresh) p (start K V) = Finished answers st ->
    dict_consistent K V keqb veqb covered arr len fresh st = true ->
    exists l, represents K V keqb arr len l /\
              answers = py_run K V (py_dict K V keqb veqb l) p [].
Proof. exact C106_dictionary_sound_s. Qed.
Print Assumptions C106_dictionary_sound.

Theorem C106_dictionary_complete :
  forall (K V : Type) keqb veqb covered, proper_sorts K V keqb veqb covered ->
  forall (k0 : K) (l : list (K * V)), NoDup (map fst l) ->
    exists arr len fresh, admissible K V keqb veqb covered arr len = true /\
      forall p, Forall (proper_op K V) p -> exists st,
        run K V (dict_step K V keqb veqb covered arr len fresh) p (start K V) =
          Finished (py_run K V (py_dict K V keqb veqb l) p []) st /\
        dict_consistent K V keqb veqb covered arr len fresh st = true.
Proof. exact C106_dictionary_complete_s. Qed.
Print Assumptions C106_dictionary_complete.

Theorem C107_frozenset_sound :
  forall (K V : Type) keqb veqb covered, proper_sorts K V keqb veqb covered ->
  (forall a b : V, a = b) ->
  forall arr len fresh item present p answers st,
    admissible K V keqb veqb covered arr len = true -> Forall (proper_op K V) p ->
    run K V (set_step K V keqb veqb covered arr len fresh) p (start K V) = Finished answers st ->
    set_consistent K V keqb veqb covered arr len item present = true ->
    exists l, represents K V keqb arr len l /\
              answers = py_run K V (py_set K V keqb veqb l) p [].
Proof. exact C107_frozenset_sound_s. Qed.
Print Assumptions C107_frozenset_sound.

Theorem C107_frozenset_complete :
  forall (K V : Type) keqb veqb covered, proper_sorts K V keqb veqb covered ->
  (forall a b : V, a = b) ->
  forall (k0 : K) (present : V) (l : list (K * V)), NoDup (map fst l) ->
    exists arr len fresh item, admissible K V keqb veqb covered arr len = true /\
      set_consistent K V keqb veqb covered arr len item present = true /\
      forall p, Forall (proper_op K V) p -> exists st,
        run K V (set_step K V keqb veqb covered arr len fresh) p (start K V) =
          Finished (py_run K V (py_set K V keqb veqb l) p []) st.
Proof. exact C107_frozenset_complete_s. Qed.
Print Assumptions C107_frozenset_complete.

Theorem C108_equality :
  forall (K V : Type) keqb veqb covered, proper_sorts K V keqb veqb covered ->
  forall a1 n1 l1 a2 n2 l2, represents K V keqb a1 n1 l1 -> represents K V keqb a2 n2 l2 ->
    both_eq K V keqb veqb covered a1 n1 a2 n2 = same_dict K V keqb veqb l1 l2.
Proof. exact C108_equality_s. Qed.
Print Assumptions C108_equality.

Theorem C108_unification :
  forall (K V : Type) keqb veqb covered, proper_sorts K V keqb veqb covered ->
  forall arr n l o, represents K V keqb arr n l -> NoDup (map fst o) ->
    unifies K V keqb veqb covered arr n o = same_dict K V keqb veqb l o.
Proof. exact C108_unification_s. Qed.
Print Assumptions C108_unification.

(** ** Witnesses: integer keys (no finite list has them all) and boolean keys *)
Example C106_int_sorts : proper_sorts Z Z Z.eqb Z.eqb (fun _ => false).
Proof.
  split; [apply Z.eqb_eq|]. split; [apply Z.eqb_eq|]. intros l.
  exists (1 + fold_right Z.max 0 l). intros I.
  assert (G : forall x, In x l -> x <= fold_right Z.max 0 l).
  { clear. induction l as [|y l IH]; cbn; [easy|]. intros x [->|J]; [lia|]. apply IH in J. lia. }
  apply G in I. lia.
Qed.

Example C107_bool_sorts :
  proper_sorts bool unit Bool.eqb (fun _ _ => true)
    (fun l => existsb (Bool.eqb true) l && existsb (Bool.eqb false) l).
Proof.
  split; [apply Bool.eqb_true_iff|]. split; [intros [] []; easy|]. intros l.
  destruct (existsb (Bool.eqb true) l) eqn:T; cbn.
  - destruct (existsb (Bool.eqb false) l) eqn:F.
    + apply existsb_exists in T. destruct T as (t & T & T'). apply existsb_exists in F.
      destruct F as (f & F & F'). intros []; [destruct t|destruct f]; easy.
    + exists false. intros I.
      assert (X : existsb (Bool.eqb false) l = true) by (apply existsb_exists; exists false; auto). congruence.
  - exists true. intros I.
    assert (X : existsb (Bool.eqb true) l = true) by (apply existsb_exists; exists true; auto). congruence.
Qed.

(** Two interleaved iterators over {5: 50, 7: 70}, and a lookup. *)
Example C106_case :
  let arr := Arr None [(7, Some 70); (5, Some 50)] in
  let fresh := fun (_ i : nat) => match i with O => 5 | _ => 7 end in
  let step := dict_step Z Z Z.eqb Z.eqb (fun _ => false) arr 2 fresh in
  let p := [ONew; ONext 0; ONew; ONext 1; ONext 1; ONext 1; ONext 0; OGet 7; OGet 8;
            OEq [(7, 70); (5, 50)]] in
  admissible Z Z Z.eqb Z.eqb (fun _ => false) arr 2 = true /\
  Forall (proper_op Z Z) p /\
  exists st,
    run Z Z step p (start Z Z) =
      Finished [ANone; AKey 5; ANone; AKey 5; AKey 7; AStop; AKey 7; AVal 70; AKeyError; ABool true] st /\
    dict_consistent Z Z Z.eqb Z.eqb (fun _ => false) arr 2 fresh st = true.
Proof.
  cbv zeta. split; [reflexivity|]. split.
  - repeat constructor; cbn; intros H; repeat destruct H as [H|H]; easy.
  - eexists. split; reflexivity.
Qed.

(** A length that disagrees with the array is noticed: the path is given up. *)
Example C106_inconsistent :
  dict_consistent Z Z Z.eqb Z.eqb (fun _ => false) (Arr None [(7, Some 70); (5, Some 50)]) 1
    (fun _ _ => 5) (start Z Z) = false.
Proof. reflexivity. Qed.
