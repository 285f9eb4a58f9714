(** C07: weighted fan-out; C52: subscripting a concrete container by a symbolic number *)
From Coq Require Import ZArith QArith List Bool Arith Lia ZifyBool.
From Verif Require Import Py Fanout_Model Fanout_Spec Fanout_Proofs.
Import ListNotations.
Open Scope Z_scope.

(** Options that cover the case at hand (some option holds): the first option that holds is
    returned, and the requested probability of getting there is its share of the weights. *)
Theorem C07_exhaustive : forall R (options : list (bool * R)) weights, good_weights options weights -> (exists r, In (true, r) options) ->
  exists i r p w, nth_error options i = Some (true, r) /\ (forall j b r', (j < i)%nat -> nth_error options j = Some (b, r') -> b = false) /\
    smt_fanout options weights 0 = Ok (Some r, p) /\ nth_error (the_weights options weights) i = Some w /\ (p * qsum (the_weights options weights) == w)%Q.
Proof. intros R. exact fanout_exhaustive. Qed.
(** With a none-of-the-above weight: the same, or the sentinel exactly if no option holds. *)
Theorem C07_none_of_the_above : forall R (options : list (bool * R)) weights nw, good_weights options weights -> (0 < nw)%Q ->
  exists p, let r := smt_fanout options weights nw in
  (exists i x w, r = Ok (Some x, p) /\ nth_error options i = Some (true, x) /\ (forall j b r', (j < i)%nat -> nth_error options j = Some (b, r') -> b = false) /\
     nth_error (the_weights options weights) i = Some w /\ (p * (qsum (the_weights options weights) + nw) == w)%Q) \/
  (r = Ok (None, p) /\ (forall b x, In (b, x) options -> b = false) /\ (p * (qsum (the_weights options weights) + nw) == nw)%Q).
Proof. intros R. exact fanout_none. Qed.
(** Full statement: every option that is possible is selected under some assignment.  Proved
    when it is possible without the options before it. *)
Theorem C07_selected_partial : forall R Asg (options : list ((Asg -> bool) * R)) i h r a,
  nth_error options i = Some (h, r) -> h a = true -> (forall j h' r', (j < i)%nat -> nth_error options j = Some (h', r') -> h' a = false) ->
  exists p, smt_fanout (map (fun o => (fst o a, snd o)) options) None 0 = Ok (Some r, p).
Proof.
  intros R Asg options i h r a O H F. destruct (fanout_exhaustive (map (fun o => (fst o a, snd o)) options) None I) as (k & x & p & w & K & Fk & E & _).
  - exists r. apply in_map_iff. exists (h, r). cbn. rewrite H. split; [reflexivity|]. now apply nth_error_In in O.
  - exists p. rewrite E. rewrite nth_error_map in K. destruct (nth_error options k) as [[h' r']|] eqn:Ok'; [|discriminate]. cbn in K. inversion K; subst.
    destruct (Nat.lt_trichotomy k i) as [L|[ -> |L]].
    + rewrite (F _ _ _ L Ok') in *. discriminate.
    + congruence.
    + exfalso. specialize (Fk i (h a) r L). rewrite nth_error_map, O in Fk. specialize (Fk eq_refl). congruence.
Qed.
Theorem C07_selected_refuted : exists (options : list ((Z -> bool) * nat)) h r, In (h, r) options /\ (exists a, h a = true) /\
  forall a p, smt_fanout (map (fun o => (fst o a, snd o)) options) None 0 <> Ok (Some r, p).
Proof.
  exists [(fun z => 0 <=? z, 0%nat); (fun z => z =? 5, 1%nat); (fun z => z <? 0, 2%nat)], (fun z => z =? 5), 1%nat.
  split; [right; left; reflexivity|]. split; [exists 5; reflexivity|]. intros a p. cbn [map fst snd]. destruct (0 <=? a) eqn:A.
  - vm_compute. discriminate.
  - replace (a =? 5) with false by lia. destruct (a <? 0); vm_compute; discriminate.
Qed.

(** ** C52 *)
Lemma enumerate_in container i v : In (i, v) (enumerate container) <-> 0 <= i /\ nth_error container (Z.to_nat i) = Some v.
Proof.
  unfold enumerate. assert (G : forall s (l : list value) i v, In (i, v) (combine (map Z.of_nat (seq s (length l))) l) <-> Z.of_nat s <= i /\ nth_error l (Z.to_nat i - s) = Some v).
  { clear. intros s l. revert s. induction l as [|x l IH]; intros s i v; cbn [length seq map combine In].
    - split; [tauto|]. intros [_ H]. destruct (Z.to_nat i - s)%nat; discriminate.
    - rewrite IH. split.
      + intros [H|[H1 H2]]; [inversion H; subst; split; [lia|]; now replace (Z.to_nat (Z.of_nat s) - s)%nat with 0%nat by lia|].
        split; [lia|]. replace (Z.to_nat i - s)%nat with (S (Z.to_nat i - S s)) by lia. exact H2.
      + intros [H1 H2]. destruct (Z.eq_dec i (Z.of_nat s)) as [->|D]; [left; replace (Z.to_nat (Z.of_nat s) - s)%nat with 0%nat in H2 by lia; cbn in H2; congruence|].
        right. split; [lia|]. replace (Z.to_nat i - s)%nat with (S (Z.to_nat i - S s)) in H2 by lia. exact H2. }
  rewrite (G 0%nat). rewrite Nat.sub_0_r. reflexivity.
Qed.
(** container[k] for a list or tuple and an int k that may be negative or out of range.  Full
    statement: for every symbolic number k; proved for ints. *)
Theorem C52_sequence_partial : forall container k neg nonneg, is_int k -> possible_ok neg nonneg k ->
  seq_getitem neg nonneg container k = py_seq_getitem container k.
Proof.
  intros container k neg nonneg [KT KD] [PN PP]. unfold seq_getitem. pose proof (multi_ok k (reachable_sequence_pairs neg nonneg container) IndexError) as M.
  assert (P : forall e v, In (e, v) (reachable_sequence_pairs neg nonneg container) /\ key_eq k e = Some true ->
    let j := if knum k <? 0 then knum k + Z.of_nat (length container) else knum k in 0 <= j /\ nth_error container (Z.to_nat j) = Some v).
  { intros e v [I K]. apply in_app_or in I as [I|I].
    - destruct (negb neg || nonneg); [|destruct I]. apply in_map_iff in I as ([i w] & E & I). apply enumerate_in in I as [I1 I2]. inversion E; subst. cbn [key_eq fst snd] in *. rewrite KD in K. inversion K. replace (knum k) with i by lia.
      replace (i <? 0) with false by lia. auto.
    - destruct neg; [|destruct I]. apply in_map_iff in I as ([i w] & E & I). apply enumerate_in in I as [I1 I2]. inversion E; subst. cbn [key_eq fst snd] in *. rewrite KD in K. inversion K. replace (knum k) with (i - Z.of_nat (length container)) by lia.
      assert (Z.to_nat i < length container)%nat by (apply nth_error_Some; congruence). replace (i - Z.of_nat (length container) <? 0) with true by lia. cbn zeta. replace (i - Z.of_nat (length container) + Z.of_nat (length container)) with i by lia. auto. }
  assert (Q : forall v, let j := if knum k <? 0 then knum k + Z.of_nat (length container) else knum k in 0 <= j -> nth_error container (Z.to_nat j) = Some v ->
    exists e, In (e, v) (reachable_sequence_pairs neg nonneg container) /\ key_eq k e = Some true).
  { intros v j J N. subst j. destruct (knum k <? 0) eqn:S.
    - exists (KNum (knum k) 1). split; [|cbn; rewrite KD, Z.eqb_refl; reflexivity]. apply in_or_app. right. rewrite PN by lia. apply in_map_iff.
      exists (knum k + Z.of_nat (length container), v). split; [cbn; f_equal; f_equal; lia|]. apply enumerate_in. auto.
    - exists (KNum (knum k) 1). split; [|cbn; rewrite KD, Z.eqb_refl; reflexivity]. apply in_or_app. left. rewrite PP by lia. rewrite orb_true_r. apply in_map_iff.
      exists (knum k, v). split; [reflexivity|]. apply enumerate_in. auto. }
  unfold py_seq_getitem. rewrite KT, KD, Z.div_1_r. cbn zeta in *. set (j := if knum k <? 0 then knum k + Z.of_nat (length container) else knum k) in *.
  destruct M as [(e & v & I & K & ->)|[N ->]].
  - destruct (P e v (conj I K)) as [J1 J2]. assert (Z.to_nat j < length container)%nat by (apply nth_error_Some; congruence).
    rewrite J2. replace ((0 <=? j) && (j <? Z.of_nat (length container))) with true by lia. reflexivity.
  - destruct ((0 <=? j) && (j <? Z.of_nat (length container))) eqn:B; [|reflexivity].
    destruct (nth_error container (Z.to_nat j)) as [v|] eqn:E; [|reflexivity]. destruct (Q v ltac:(lia) eq_refl) as (e & I & K). now apply N in I.
Qed.
(** A float index gives an element, or IndexError, where CPython raises TypeError. *)
Theorem C52_float_refuted : exists container k neg nonneg v, possible_ok neg nonneg k /\
  seq_getitem neg nonneg container k = Ok v /\ py_seq_getitem container k = Err TypeError.
Proof. exists [Atomic 0 7], (mkKey KFloat 0 1), false, true, (Atomic 0 7). split; [split; cbn; [lia|reflexivity]|]. split; vm_compute; reflexivity. Qed.
(** d[k] for a dict: the value of the entry with an equal key, whatever the types of the values
    and of the other keys; or KeyError. *)
Theorem C52_dict : forall items k, py_dict_getitem items k (dict_getitem items k).
Proof.
  intros items k. assert (S : forall e, key_eq k e = Some true <-> same_number k e).
  { intros [n d|]; cbn; [rewrite <- (Z.eqb_eq (knum k * Zpos d)); split; intro H; congruence|split; [discriminate|tauto]]. }
  destruct (multi_ok k items KeyError) as [(e & v & I & K & E)|[N E]]; unfold dict_getitem; rewrite E.
  - apply dict_found with e; [exact I|now apply S].
  - apply dict_missing. intros e v I K. apply (N e v I). now apply S.
Qed.
(** ... which is one answer, as the keys of a dict are different. *)
Theorem C52_dict_unique : forall items k r r', distinct_keys items -> py_dict_getitem items k r -> py_dict_getitem items k r' -> r = r'.
Proof.
  intros items k r r' D H H'. destruct H as [e v I S|N], H' as [e' v' I' S'|N'].
  - apply In_nth_error in I as [i I]. apply In_nth_error in I' as [j J]. assert (i = j) by exact (D i j e v e' v' k I J S S'). subst. congruence.
  - exfalso. exact (N' e v I S).
  - exfalso. exact (N e' v' I' S').
  - reflexivity.
Qed.

Example C07_case : smt_fanout [(false, 1); (true, 2); (true, 3)] (Some [1%Q; 2%Q; 1%Q]) 0 = Ok (Some 2, ((1 - 1 / (1 + (2 + (1 + 0)))) * ((2 + 0) / (2 + 0 + (1 + 0)) * 1))%Q) /\
  (exists p, smt_fanout [(false, 1); (false, 2)] None 1%Q = Ok (None, p)) /\ good_weights [(false, 1); (true, 2); (true, 3)] (Some [1%Q; 2%Q; 1%Q]).
Proof. split; [reflexivity|]. split; [eexists; reflexivity|]. split; [reflexivity|]. cbn. intros x X. intuition subst; reflexivity. Qed.
Example C52_case :
  let c := [Atomic 0 7; Object 3; Atomic 1 1; Atomic 0 9; Object 3] in
  map (fun i => seq_getitem true true c (mkKey KInt i 1)) [-6; -5; -1; 0; 1; 2; 3; 4; 5] =
    [Err IndexError; Ok (Atomic 0 7); Ok (Object 3); Ok (Atomic 0 7); Ok (Object 3); Ok (Atomic 1 1); Ok (Atomic 0 9); Ok (Object 3); Err IndexError] /\
  dict_getitem [(KOther, Object 1); (KNum 3 2, Object 1); (KNum 4 1, Atomic 0 5)] (mkKey KFloat 8 2) = Ok (Atomic 0 5).
Proof. split; vm_compute; reflexivity. Qed.

Print Assumptions C07_exhaustive.
Print Assumptions C07_none_of_the_above.
Print Assumptions C07_selected_partial.
Print Assumptions C07_selected_refuted.
Print Assumptions C52_sequence_partial.
Print Assumptions C52_float_refuted.
Print Assumptions C52_dict.
Print Assumptions C52_dict_unique.
