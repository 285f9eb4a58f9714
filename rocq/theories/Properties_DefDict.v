(** C162: default dictionaries. *)
From Coq Require Import ZArith List Bool Lia.
From Verif Require Import Py DefDict_Model DefDict_Spec.
Import ListNotations.
Local Open Scope Z_scope.

Lemma lookup_value : forall d k, lookup k d = value k d.
Proof.
  induction d as [|[a b] d IH]; intros k; [reflexivity|]. unfold value in *. cbn [lookup find fst].
  rewrite (Z.eqb_sym a k). destruct (k =? a); [reflexivity|apply IH].
Qed.
Lemma has_value : forall d k, has k d = match value k d with Some _ => true | None => false end.
Proof.
  induction d as [|[a b] d IH]; intros k; [reflexivity|]. unfold value, has in *. cbn [existsb find fst].
  destruct (a =? k); [reflexivity|apply IH].
Qed.
Lemma has_In : forall d k, has k d = true <-> In k (map fst d).
Proof.
  intros d k. unfold has. rewrite existsb_exists, in_map_iff. split.
  - intros [p [I E]]. apply Z.eqb_eq in E. exists p. split; assumption.
  - intros [p [E I]]. exists p. split; [exact I|]. apply Z.eqb_eq. exact E.
Qed.

Lemma map_other : forall (d : list (Z * Z)) k v, has k d = false ->
  map (fun p => if fst p =? k then (k, v) else p) d = d.
Proof.
  induction d as [|[a b] d IH]; intros k v H; [reflexivity|]. unfold has in *. cbn [existsb map fst] in *.
  apply orb_false_iff in H. destruct H as [H1 H2]. rewrite H1, (IH k v H2). reflexivity.
Qed.
Lemma store_assign : forall d k v, NoDup (map fst d) -> store k v d = assign k v d.
Proof.
  induction d as [|[a b] d IH]; intros k v N; [reflexivity|]. cbn [map fst] in N. inversion_clear N as [|? ? N1 N2].
  cbn [store]. unfold assign. unfold has at 1. cbn [existsb fst map]. rewrite (Z.eqb_sym a k).
  destruct (Z.eqb_spec k a) as [E|E]; cbn [orb].
  - subst a. rewrite map_other; [reflexivity|]. destruct (has k d) eqn:H; [|reflexivity].
    apply has_In in H. contradiction.
  - rewrite (IH k v N2). unfold assign. fold (has k d). destruct (has k d); reflexivity.
Qed.
Lemma filter_all : forall (A : Type) (f : A -> bool) l, (forall x, In x l -> f x = true) -> filter f l = l.
Proof.
  intros A f. induction l as [|x l IH]; intros H; [reflexivity|]. cbn [filter].
  rewrite (H x (or_introl eq_refl)), IH; [reflexivity|]. intros y I. apply H. right. exact I.
Qed.
Lemma delete_without : forall d k, NoDup (map fst d) -> delete k d = without k d.
Proof.
  induction d as [|[a b] d IH]; intros k N; [reflexivity|]. cbn [map fst] in N. inversion_clear N as [|? ? N1 N2].
  unfold without in *. cbn [delete filter fst]. rewrite (Z.eqb_sym a k).
  destruct (Z.eqb_spec k a) as [E|E]; cbn [negb].
  - subst a. symmetry. apply filter_all. intros p I.
    destruct (Z.eqb_spec (fst p) k) as [E|E]; [|reflexivity]. exfalso. apply N1. rewrite <- E. apply in_map. exact I.
  - rewrite (IH k N2). reflexivity.
Qed.

Lemma assign_keys : forall d k v,
  map fst (assign k v d) = if has k d then map fst d else map fst d ++ [k].
Proof.
  intros d k v. unfold assign. destruct (has k d); [|apply map_app].
  rewrite map_map. apply map_ext. intros p. destruct (Z.eqb_spec (fst p) k) as [E|E]; [symmetry; exact E|reflexivity].
Qed.
Lemma assign_NoDup : forall d k v, NoDup (map fst d) -> NoDup (map fst (assign k v d)).
Proof.
  intros d k v N. rewrite assign_keys. destruct (has k d) eqn:H; [exact N|].
  apply NoDup_rev in N. rewrite <- (rev_involutive (map fst d ++ [k])). apply NoDup_rev.
  rewrite rev_app_distr. cbn [rev app]. constructor; [|exact N].
  rewrite <- in_rev. intros I. apply has_In in I. congruence.
Qed.
Lemma without_NoDup : forall d k, NoDup (map fst d) -> NoDup (map fst (without k d)).
Proof.
  induction d as [|[a b] d IH]; intros k N; [constructor|]. cbn [map fst] in N. inversion_clear N as [|? ? N1 N2].
  unfold without in *. cbn [filter fst]. destruct (negb (a =? k)); [|apply IH; exact N2].
  cbn [map fst]. constructor; [|apply IH; exact N2]. intros I. apply N1.
  apply in_map_iff in I. destruct I as [p [E I]]. apply filter_In in I. rewrite <- E. apply in_map. apply I.
Qed.

(** clear empties the dictionary, whatever the factory. *)
Lemma clear_ok : forall factory d n m, NoDup (map fst d) -> (length d < m)%nat ->
  clear factory m (mkState d n) = (Ok ONone, mkState [] n).
Proof.
  intros factory. induction d as [|[a b] d IH]; intros n m N L; (destruct m as [|m]; [cbn in L; lia|]).
  - reflexivity.
  - cbn [clear]. unfold popitem. cbn [internal]. unfold getitem, delitem. cbn [internal lookup].
    rewrite Z.eqb_refl. cbn [internal lookup delete calls]. rewrite Z.eqb_refl.
    cbn [map fst] in N. inversion_clear N as [|? ? N1 N2]. apply IH; [exact N2|cbn in L; lia].
Qed.

Lemma update_ok : forall items d n, NoDup (map fst d) ->
  fold_left (fun s p => setitem (fst p) (snd p) s) items (mkState d n) =
  mkState (fold_left (fun d p => assign (fst p) (snd p) d) items d) n /\
  NoDup (map fst (fold_left (fun d p => assign (fst p) (snd p) d) items d)).
Proof.
  induction items as [|p items IH]; intros d n N; cbn [fold_left]; [split; [reflexivity|exact N]|].
  unfold setitem at 2. cbn [internal calls]. rewrite store_assign by exact N.
  apply IH. apply assign_NoDup. exact N.
Qed.

(** One step agrees with the reference if it is tame. *)
Lemma step_ok : forall factory o d n, NoDup (map fst d) -> tame factory o d ->
  let '(x, (d1, n1)) := reference factory o d n in
  step factory o (mkState d n) = (x, mkState d1 n1) /\ NoDup (map fst d1).
Proof.
  intros factory o d n N T.
  destruct o as [k|k v|k| | |k|k de|k de|k de| | |items]; cbn [reference step tame] in *;
    unfold getitem, missing, setitem; cbn [internal calls]; rewrite ?lookup_value.
  - destruct (value k d) as [v|] eqn:V; [split; [reflexivity|exact N]|].
    destruct factory as [f|]; [|split; [reflexivity|exact N]].
    destruct (f n) as [v|e]; [|split; [reflexivity|exact N]].
    rewrite store_assign by exact N. split; [reflexivity|apply assign_NoDup; exact N].
  - rewrite store_assign by exact N. split; [reflexivity|apply assign_NoDup; exact N].
  - unfold delitem. cbn [internal calls]. rewrite lookup_value, has_value, <- delete_without by exact N.
    destruct (value k d); (split; [reflexivity|]); [|exact N].
    rewrite delete_without by exact N. apply without_NoDup. exact N.
  - split; [reflexivity|exact N].
  - split; [reflexivity|exact N].
  - rewrite has_value in *. destruct (value k d); [split; [reflexivity|exact N]|].
    destruct T as [->|T]; [|discriminate]. split; [reflexivity|exact N].
  - rewrite has_value in *. destruct (value k d); [split; [reflexivity|exact N]|].
    destruct T as [->|T]; [|discriminate]. split; [reflexivity|exact N].
  - rewrite has_value in *. destruct (value k d) eqn:V.
    + unfold delitem. cbn [internal calls]. rewrite lookup_value, V, delete_without by exact N.
      split; [reflexivity|apply without_NoDup; exact N].
    + destruct T as [->|T]; [|discriminate]. destruct de; (split; [reflexivity|exact N]).
  - rewrite has_value in *. destruct (value k d); [split; [reflexivity|exact N]|].
    destruct T as [->|T]; [|discriminate]. cbn [internal calls].
    rewrite store_assign by exact N. split; [reflexivity|apply assign_NoDup; exact N].
  - unfold popitem. cbn [internal]. destruct d as [|[a b] [|y d]]; [split; [reflexivity|exact N]| |cbn in T; lia].
    cbn [rev app]. unfold getitem, delitem. cbn [internal lookup]. rewrite Z.eqb_refl.
    cbn [internal lookup delete calls]. rewrite Z.eqb_refl. split; [reflexivity|constructor].
  - rewrite clear_ok; [split; [reflexivity|constructor]|exact N|lia].
  - destruct (update_ok items d n N) as [E M]. unfold setitem in E. rewrite E. split; [reflexivity|exact M].
Qed.

(** C162: in every history of tame uses the stand-in gives what a defaultdict gives, and
    ends with the same entries in the same order, and as many calls of the factory. *)
Theorem C162_history_partial : forall factory os d n,
  NoDup (map fst d) -> tame_run factory os d n ->
  let '(xs, (d1, n1)) := reference_run factory os d n in
  run factory os (mkState d n) = (xs, mkState d1 n1).
Proof.
  intros factory. induction os as [|o os IH]; intros d n N T; cbn [reference_run run tame_run] in *; [reflexivity|].
  destruct T as [T1 T2]. pose proof (step_ok factory o d n N T1) as S.
  destruct (reference factory o d n) as [x [d1 n1]]. destruct S as [-> N1]. cbn [fst snd] in T2.
  specialize (IH d1 n1 N1 T2). destruct (reference_run factory os d1 n1) as [xs [d2 n2]].
  rewrite IH. reflexivity.
Qed.
Print Assumptions C162_history_partial.

Definition counter : option (nat -> res Z) := Some (fun n => Ok (100 + Z.of_nat n)).
Example C162_history_example :
  let os := [GetItem 1; GetItem 1; SetItem 2 5; Contains 2; Get 1 7; GetItem 3; Pop 1 None; SetDefault 2 9; Iter; DelItem 4] in
  tame_run counter os [] O /\
  reference_run counter os [] O =
    ([Ok (OVal 100); Ok (OVal 100); Ok ONone; Ok (OBool true); Ok (OVal 100); Ok (OVal 101); Ok (OVal 100);
      Ok (OVal 5); Ok (OKeys [2; 3]); Err KeyError], ([(2, 5); (3, 101)], 2%nat)).
Proof. split; [|reflexivity]. cbn. repeat split; right; reflexivity. Qed.

(** d[k] itself is right in every state: it is a tame use, as are stores, deletions,
    iteration, len, clear and update. *)
Theorem C162_core : forall factory o d n,
  NoDup (map fst d) ->
  match o with Contains _ | Get _ _ | Pop _ _ | SetDefault _ _ | PopItem => False | _ => True end ->
  let '(x, (d1, n1)) := reference factory o d n in
  step factory o (mkState d n) = (x, mkState d1 n1).
Proof.
  intros factory o d n N H. assert (T : tame factory o d) by (destruct o; try exact I; destruct H).
  pose proof (step_ok factory o d n N T) as S. destruct (reference factory o d n) as [x [d1 n1]]. apply S.
Qed.
Print Assumptions C162_core.

Lemma store_lookup : forall d k v, lookup k (store k v d) = Some v.
Proof.
  induction d as [|[a b] d IH]; intros k v; cbn [store lookup]; [rewrite Z.eqb_refl; reflexivity|].
  destruct (k =? a) eqn:E; cbn [lookup]; rewrite E; [reflexivity|apply IH].
Qed.
(** Refuted for the others, on every dictionary with a factory that gives a value: a key
    that is not there is found by "in", which stores it; get and setdefault ignore the
    default given; pop does not fail. *)
Theorem C162_absent : forall f d n v k, value k d = None -> f n = Ok v ->
  let d' := mkState d n in
  (fst (step (Some f) (Contains k) d') = Ok (OBool true) /\
   fst (reference (Some f) (Contains k) d n) = Ok (OBool false) /\
   lookup k (internal (snd (step (Some f) (Contains k) d'))) = Some v) /\
  (forall de, fst (step (Some f) (Get k de) d') = Ok (OVal v) /\
              fst (reference (Some f) (Get k de) d n) = Ok (OVal de)) /\
  (forall de, fst (step (Some f) (SetDefault k de) d') = Ok (OVal v) /\
              fst (reference (Some f) (SetDefault k de) d n) = Ok (OVal de)) /\
  (fst (step (Some f) (Pop k None) d') = Ok (OVal v) /\
   fst (reference (Some f) (Pop k None) d n) = Err KeyError).
Proof.
  intros f d n v k V F. cbn [step reference]. unfold getitem, missing, delitem.
  cbn [internal calls]. rewrite lookup_value, V, F. cbn [fst snd internal calls].
  rewrite has_value, V, store_lookup. split; [split; [reflexivity|split; reflexivity]|].
  split; [intros de; split; reflexivity|]. split; [intros de; split; reflexivity|]. split; reflexivity.
Qed.
Print Assumptions C162_absent.
Example C162_absent_example : value 3 [(1, 2)] = None /\ (fun _ : nat => Ok (0 : Z)) O = Ok 0.
Proof. split; reflexivity. Qed.

Theorem C162_popitem : forall factory a b c d n, a <> c ->
  fst (step factory PopItem (mkState [(a, b); (c, d)] n)) = Ok (OPair a b) /\
  fst (reference factory PopItem [(a, b); (c, d)] n) = Ok (OPair c d).
Proof.
  intros factory a b c d n H. split; [|reflexivity].
  cbn [step]. unfold popitem. cbn [internal]. unfold getitem, delitem. cbn [internal lookup].
  rewrite Z.eqb_refl. cbn [internal lookup]. rewrite Z.eqb_refl. reflexivity.
Qed.
Print Assumptions C162_popitem.

Theorem C162_refuted :
  exists (factory : option (nat -> res Z)) (o : op) (d : list (Z * Z)) (n : nat),
    NoDup (map fst d) /\
    fst (step factory o (mkState d n)) <> fst (reference factory o d n) /\
    internal (snd (step factory o (mkState d n))) <> fst (snd (reference factory o d n)).
Proof.
  exists counter, (Contains 3), [(1, 2)], O.
  split; [constructor; [intros []|constructor]|]. split; discriminate.
Qed.
Print Assumptions C162_refuted.
