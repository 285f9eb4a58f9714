(** C37: the lazily created code points of a symbolic string *)
From Coq Require Import ZArith List Bool Lia.
From Verif Require Import Py Range_Spec PySeq_Spec LazySeq_Model LazySeq_Spec LazySeq_Proofs.
Import ListNotations.
Open Scope Z_scope.

(** Full statement: whatever was accessed before, every access is answered as by the one
    tuple of the [n] items [v 0], ..., [v (n-1)].  Proved for the histories that never
    compare with a sequence longer than [n] and take no slice with a negative step and a
    positive stop (inside the sequence, and a start that is absent or not negative); the
    others are refuted below. *)
Theorem C37_history_partial : forall v n, 0 <= n -> forall os, Forall (covered n) os ->
  fst (run v n init os) = map (answer (map v (upto 0 n))) os.
Proof. intros v n N os F. apply run_good; auto. now apply init_good. Qed.
(** After a longer sequence was compared with, items beyond the end show up: with two items,
    s[0], s[1], s == (9,9,9,9), s[0], then s[-1] is not the last item, s[2] does not raise,
    and slicing fails internally. *)
Theorem C37_longer_refuted : exists v n os, 0 <= n /\
  nth_error (fst (run v n init (os ++ [Get (-1)]))) 4 = Some (RItem (Ok (v 2))) /\ answer (map v (upto 0 n)) (Get (-1)) = RItem (Ok (v 1)) /\ v 1 <> v 2 /\
  nth_error (fst (run v n init (os ++ [Get 2]))) 4 = Some (RItem (Ok (v 2))) /\ answer (map v (upto 0 n)) (Get 2) = RItem (Err IndexError) /\
  nth_error (fst (run v n init (os ++ [Slice (mkSl (Some (-1)) None None)]))) 4 = Some (RItems (Err RuntimeError)).
Proof.
  exists (fun i => 10 + i), 2, [Get 0; Get 1; EqTo [9; 9; 9; 9]; Get 0]. split; [lia|].
  repeat split; try reflexivity. discriminate.
Qed.
(** Slices with a negative step see only what was created so far. *)
Theorem C37_backwards_refuted : exists v n sl, 0 <= n /\
  fst (run v n init [Slice sl]) = [RItems (Ok [])] /\ answer (map v (upto 0 n)) (Slice sl) = RItems (Ok [v 4; v 3; v 2]).
Proof. exists (fun i => i), 5, (mkSl (Some 4) (Some 1) (Some (-1))). repeat split; try reflexivity. lia. Qed.
(** In every history, an item handed out satisfies the range constraint that was added to the
    path when its variable was made. *)
Theorem C37_ranges : forall ranges v n, 0 <= n -> forall os,
  let '(rs, s) := run v n init os in
  (forall i, In i (created s ++ queue s) -> in_ranges ranges (v i) = true) ->
  forall k o r, nth_error os k = Some o -> nth_error rs k = Some r -> forall x, In x (given o r) -> in_ranges ranges x = true.
Proof.
  intros ranges v n N os. pose proof (run_w v n N os 0 0 init init_shape) as (c & t & SH & _ & _ & V). destruct (run v n init os) as [rs s]. cbn [fst snd] in *.
  intros CON k o r O R x X. destruct (V k o r O R x X) as (i & I & ->). apply CON. apply in_or_app. left. destruct SH as (_ & -> & _). now apply in_upto.
Qed.
(** That constraint admits exactly the values of the ranges, ends included. *)
Theorem C37_range_constraint : forall ranges x, in_ranges ranges x = true <-> exists lo hi, In (lo, hi) ranges /\ lo <= x <= hi.
Proof.
  intros ranges x. unfold in_ranges. rewrite existsb_exists. split.
  - intros ([lo hi] & I & H). cbn in H. apply andb_prop in H as [H1 H2]. exists lo, hi. split; [assumption|lia].
  - intros (lo & hi & I & H). exists (lo, hi). split; [assumption|]. cbn. apply andb_true_intro. lia.
Qed.

Example C37_history_case :
  let os := [Get 1; Slice (mkSl (Some 1) (Some 4) (Some 2)); EqTo [10; 11]; Get (-2); Get 7; Slice (mkSl (Some 2) None None); Slice (mkSl None None (Some (-1))); Next 4; Next 5; Index 13 (-3) 99; Realize] in
  Forall (covered 5) os /\ fst (run (fun i => 10 + i) 5 init os) =
  [RItem (Ok 11); RItems (Ok [11; 13]); RBool false; RItem (Ok 13); RItem (Err IndexError); RItems (Ok [12; 13; 14]); RItems (Ok [14; 13; 12; 11; 10]);
   RItem (Ok 14); RItem (Err StopIteration); RItem (Ok 3); RItems (Ok [10; 11; 12; 13; 14])].
Proof. split; [|reflexivity]. repeat (constructor; [cbn; try exact I; lia|]). constructor. Qed.
Example C37_ranges_case : let '(rs, s) := run (fun i => 97 + i) 2 init [Get 0; EqTo [1; 2; 3]] in
  created s ++ queue s = [0; 1; 2] /\ forallb (fun i => in_ranges [(0, 50); (90, 120)] (97 + i)) (created s ++ queue s) = true.
Proof. vm_compute. auto. Qed.

Print Assumptions C37_history_partial.
Print Assumptions C37_longer_refuted.
Print Assumptions C37_backwards_refuted.
Print Assumptions C37_ranges.
Print Assumptions C37_range_constraint.
