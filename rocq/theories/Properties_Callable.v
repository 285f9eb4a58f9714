(** Arguments that are functions (C125).

    Full property: the function printed in a counterexample, when evaluated, returns in every
    sequence of calls what the function returned on the path; a copy goes on as the original does;
    functions that compare equal give the same results. *)
From Coq Require Import String.
From Coq Require Import ZArith List Bool Arith Lia.
From Verif Require Import Callable_Model Callable_Spec.
Import ListNotations.

(** The results of a sequence of calls on the path. *)
Fixpoint calls (c : callable) (l : list arguments) : list result :=
  match l with [] => [] | a :: l => let '(r, c) := call c a in Returns r :: calls c l end.
(** What is printed for a single value is an expression for it. *)
Definition printable (v : val) : Prop := match v with VStr _ | VNan | VInf _ => False | _ => True end.
Definition by_position (a : arguments) : Prop := a_kw a = [].

(** The n-th call returns the n-th value, or the last. *)
Lemma calls_are_values vs i l : vs <> [] ->
  calls (Callable vs i) l = map (fun n => Returns (nth (Nat.min (i + n) (length vs - 1)) vs VNone)) (seq 0 (length l)).
Proof.
  intro NE. revert i. induction l as [|a l IH]; intro i; [reflexivity|]. cbn [calls length seq map call c_values c_idx].
  unfold call. cbn [c_values c_idx].
  assert (LV : length vs <> 0) by (destruct vs; [congruence|cbn; lia]).
  rewrite <- seq_shift, map_map.
  destruct (length vs <=? i) eqn:E; [apply Nat.leb_le in E|apply Nat.leb_gt in E]; f_equal.
  - f_equal. rewrite Nat.min_r by lia. clear -NE. induction vs as [|x vs IH]; [congruence|].
    destruct vs as [|y vs]; [reflexivity|]. cbn [length last]. change (last (y :: vs) VNone = nth (S (length vs) - 0) (x :: y :: vs) VNone).
    rewrite IH by discriminate. cbn [length]. now rewrite !Nat.sub_0_r, Nat.sub_succ, Nat.sub_0_r.
  - rewrite IH. apply map_ext. intro n. do 2 f_equal. lia.
  - f_equal. f_equal. lia.
  - rewrite IH. apply map_ext. intro n. do 2 f_equal. lia.
Qed.
(** Theorem: the n-th call on the path returns the n-th value, and the last one from then on. *)
Theorem calls_in_order vs c l n : make vs = Some c -> n < length l ->
  nth_error (calls c l) n = Some (Returns (nth (Nat.min n (length vs - 1)) vs VNone)).
Proof.
  intros M N. destruct vs as [|v vs]; [discriminate|]. injection M as <-. rewrite calls_are_values by discriminate.
  rewrite nth_error_map.
  assert (E : nth_error (seq 0 (length l)) n = Some n).
  { rewrite (nth_error_nth' _ 0) by now rewrite seq_length. now rewrite seq_nth. }
  now rewrite E.
Qed.
Print Assumptions calls_in_order.

Lemma popping_calls word vs l : vs <> [] -> Forall by_position l ->
  applies word (Stateful vs) l = calls (Callable vs 0) l.
Proof.
  intros NE B. rewrite calls_are_values by exact NE. revert vs NE. induction B as [|a l BA B IH]; intros vs NE; [reflexivity|].
  cbn [applies]. unfold apply. unfold by_position in BA. rewrite BA. destruct vs as [|v vs]; [congruence|].
  cbn [length seq map]. rewrite <- seq_shift, map_map. destruct vs as [|w vs].
  - rewrite IH by discriminate. f_equal. apply map_ext. intro n. f_equal. f_equal. cbn [length]. lia.
  - rewrite IH by discriminate. f_equal. apply map_ext. intro n. f_equal. cbn [length].
    replace (Nat.min (0 + S n) (S (S (length vs)) - 1)) with (S (Nat.min (0 + n) (S (length vs) - 1))) by lia. reflexivity.
Qed.
(** The callable after some calls *)
Fixpoint later (c : callable) (l : list arguments) : callable :=
  match l with [] => c | a :: l => later (snd (call c a)) l end.
Lemma later_values l : forall c, c_values (later c l) = c_values c.
Proof.
  induction l as [|a l IH]; intro c; [reflexivity|]. cbn [later]. rewrite IH. unfold call. destruct (_ <=? _); reflexivity.
Qed.
(** The printed function repeats the path if it is called by position and either there are several
    values or the only one is printed as it would be in a list; it may be printed when calls have
    been made already, it starts from the first one.  Missing: single texts, nan and the
    infinities, and arguments by name: all refuted below. *)
Theorem callable_repeats_partial word vs c l : make vs = Some c -> Forall by_position l ->
  (forall v, vs = [v] -> printable v) ->
  exists f, (forall earlier, evaluate word (print (later c earlier)) = Some f) /\ applies word f l = calls c l.
Proof.
  intros M B P.
  enough (X : exists f, evaluate word (print c) = Some f /\ applies word f l = calls c l).
  { destruct X as (f & X & Y). exists f. split; [|exact Y]. intro b. unfold print. rewrite later_values. exact X. }
  destruct vs as [|v vs]; [discriminate|]. injection M as <-. unfold print. cbn [c_values].
  destruct vs as [|w vs].
  - destruct (atomic v) eqn:A.
    + exists (Constant (format v)). split; [reflexivity|].
      assert (F : format v = Repr v) by (specialize (P v eq_refl); destruct v; cbn in *; tauto).
      rewrite F. rewrite calls_are_values by discriminate. clear -B. induction B as [|a l BA B IH]; [reflexivity|].
      cbn [applies]. unfold apply. unfold by_position in BA. rewrite BA. cbn [meaning length seq map].
      rewrite IH, <- seq_shift, map_map. f_equal. apply map_ext. intro n. now destruct n.
    + exists (Stateful [v]). split; [reflexivity|]. apply popping_calls; [discriminate|exact B].
  - exists (Stateful (v :: w :: vs)). split; [reflexivity|]. apply popping_calls; [discriminate|exact B].
Qed.
Print Assumptions callable_repeats_partial.

Lemma skipn_nth (vs : list val) : forall i k, nth k (skipn i vs) VNone = nth (i + k) vs VNone.
Proof.
  induction vs as [|v vs IH]; intros [|i] k; try reflexivity; [now destruct k|]. apply IH.
Qed.
(** A copy made while values are left goes on as the original.  Missing: afterwards, refuted below. *)
Theorem callable_copy_partial c l : c_idx c < length (c_values c) ->
  exists d, copy c = Some d /\ calls d l = calls c l.
Proof.
  destruct c as [vs i]. cbn [c_idx c_values]. intro L. unfold copy. cbn [c_idx c_values].
  assert (LS : length (skipn i vs) = length vs - i) by apply skipn_length.
  destruct (skipn i vs) as [|v r] eqn:E; [cbn in LS; lia|]. exists (Callable (v :: r) 0). split; [reflexivity|].
  rewrite !calls_are_values; [|destruct vs; [cbn in L; lia|discriminate]|discriminate].
  apply map_ext. intro n. f_equal. rewrite <- E. cbn [length] in LS.
  rewrite skipn_nth. f_equal. rewrite E. cbn [length]. lia.
Qed.
Print Assumptions callable_copy_partial.

(** Functions called equally often that compare equal give the same results from then on, if the
    comparison of lists is right.  Missing: functions called a different number of times, refuted
    below. *)
Theorem callable_equal_partial same c d l : (forall x y, same x y = true -> x = y) ->
  c_idx c = c_idx d -> c_idx c < length (c_values c) -> eq same c d = true -> calls c l = calls d l.
Proof.
  intros R I L E. apply R in E. destruct c as [vs i], d as [ws j]. cbn [c_idx c_values] in *. subst j.
  assert (LW : length vs - i = length ws - i) by (rewrite <- !skipn_length; now rewrite E).
  destruct (callable_copy_partial (Callable vs i) l L) as (c' & C & D).
  assert (L' : c_idx (Callable ws i) < length (c_values (Callable ws i))) by (cbn; lia).
  destruct (callable_copy_partial (Callable ws i) l L') as (d' & C' & D').
  unfold copy in C, C'. cbn [c_idx c_values] in *. rewrite E in C. rewrite C in C'. injection C' as <-. now rewrite <- D, <- D'.
Qed.
Print Assumptions callable_equal_partial.

(** * Witnesses *)
Definition no_args := Arguments [] [].
Definition one_arg := Arguments [VInt 5] [].
Definition by_name := Arguments [] [("x"%string, VInt 5)].
(** names that are not defined *)
Definition nothing : string -> option val := fun _ => None.
Example callable_case :
  let c := Callable [VInt 1; VStr "a"] 0 in
  make [VInt 1; VStr "a"] = Some c /\
  calls c [no_args; one_arg; no_args] = [Returns (VInt 1); Returns (VStr "a"); Returns (VStr "a")] /\
  evaluate nothing (print c) = Some (Stateful [VInt 1; VStr "a"]) /\
  applies nothing (Stateful [VInt 1; VStr "a"]) [no_args; one_arg; no_args] = [Returns (VInt 1); Returns (VStr "a"); Returns (VStr "a")] /\
  copy (snd (call c no_args)) = Some (Callable [VStr "a"] 0).
Proof. repeat split. Qed.
(** A single text is printed without quotes: it is taken for a name ... *)
Theorem callable_text_refuted : exists c f, make [VStr "abc"] = Some c /\ evaluate nothing (print c) = Some f /\
  calls c [no_args] = [Returns (VStr "abc")] /\ applies nothing f [no_args] = [Raises].
Proof. now exists (Callable [VStr "abc"] 0), (Constant (Raw "abc")). Qed.
(** ... or for a number *)
Definition five : string -> option val := fun s => if String.eqb s "5" then Some (VInt 5) else None.
Theorem callable_number_refuted : exists c f, make [VStr "5"] = Some c /\ evaluate five (print c) = Some f /\
  calls c [no_args] = [Returns (VStr "5")] /\ applies five f [no_args] = [Returns (VInt 5)].
Proof. now exists (Callable [VStr "5"] 0), (Constant (Raw "5")). Qed.
(** A single nan is printed as a name that is not defined *)
Theorem callable_nan_refuted : exists c f, make [VNan] = Some c /\ evaluate nothing (print c) = Some f /\
  calls c [no_args] = [Returns VNan] /\ applies nothing f [no_args] = [Raises].
Proof. now exists (Callable [VNan] 0), (Constant (Raw "nan")). Qed.
(** The printed function takes no arguments by name *)
Theorem callable_by_name_refuted : exists vs c f, make vs = Some c /\ evaluate nothing (print c) = Some f /\
  calls c [by_name] = [Returns (VInt 1)] /\ applies nothing f [by_name] = [Raises].
Proof. now exists [VInt 1], (Callable [VInt 1] 0), (Constant (Repr (VInt 1))). Qed.
(** When all values were returned, a copy cannot be made *)
Theorem callable_copy_refuted : exists c, make [VInt 1] = Some c /\ copy (snd (call c no_args)) = None.
Proof. now exists (Callable [VInt 1] 0). Qed.
(** The index of the first is used for the second too: f == g although the next results differ *)
Definition same_list (x y : list val) : bool :=
  match x, y with
  | [VInt a; VInt b], [VInt c; VInt d] => Z.eqb a c && Z.eqb b d
  | _, _ => false
  end.
Theorem callable_equal_refuted : exists c d, (forall x y, same_list x y = true -> x = y) /\
  eq same_list c (snd (call d no_args)) = true /\ calls c [no_args] <> calls (snd (call d no_args)) [no_args].
Proof.
  exists (Callable [VInt 1; VInt 2] 0), (Callable [VInt 1; VInt 2] 0). split; [|split; [reflexivity|discriminate]].
  intros x y H. unfold same_list in H.
  destruct x as [|[] [|[] []]]; try discriminate; destruct y as [|[] [|[] []]]; try discriminate.
  apply andb_prop in H. destruct H as [H1 H2]. apply Z.eqb_eq in H1, H2. now subst.
Qed.
Print Assumptions callable_text_refuted.
Print Assumptions callable_number_refuted.
Print Assumptions callable_nan_refuted.
Print Assumptions callable_by_name_refuted.
Print Assumptions callable_copy_refuted.
Print Assumptions callable_equal_refuted.
