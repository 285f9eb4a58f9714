(* C128: a frozenset has the elements its argument had when it was made. *)
From Coq Require Import ZArith List Bool Arith Lia.
From Verif Require Import Freeze_Model Freeze_Spec.
Import ListNotations.

Definition same (l m : list Z) : Prop := NoDup l /\ forall x, In x l <-> In x m.
Lemma memb_in x l : memb x l = true <-> In x l.
Proof.
  unfold memb. rewrite existsb_exists. split; [intros (y & I & E); apply Z.eqb_eq in E; now subst|]. intro I. exists x. now rewrite Z.eqb_refl.
Qed.
Lemma memb_has x l m : same l m -> memb x l = has m x.
Proof.
  intros [_ S]. unfold has. destruct (in_dec Z.eq_dec x m) as [I|I]; [apply memb_in; now apply S|].
  destruct (memb x l) eqn:M; [|reflexivity]. exfalso. apply I, S. now apply memb_in.
Qed.
Lemma length_size l m : same l m -> length l = size m.
Proof.
  intros [N S]. unfold size. apply Nat.le_antisymm; apply NoDup_incl_length; auto using NoDup_nodup.
  - intros x I. apply nodup_In. now apply S.
  - intros x I. apply nodup_In in I. now apply S.
Qed.
Lemma same_snoc l x : NoDup l -> memb x l = false -> NoDup (l ++ [x]).
Proof.
  intros N M. apply NoDup_Add with (a := x) (l := l); [rewrite <- (app_nil_r l) at 1; apply Add_app|]. split; [exact N|]. intro I. apply memb_in in I. congruence.
Qed.
Lemma accept_ok seq : forall accepted, NoDup accepted -> NoDup (accept seq accepted) /\ forall x, In x (accept seq accepted) <-> In x seq \/ In x accepted.
Proof.
  induction seq as [|y seq IH]; intros acc N; cbn; [tauto|]. destruct (memb y acc) eqn:M.
  - destruct (IH acc N) as [N' H]. split; [exact N'|]. intro x. rewrite H. split; [tauto|]. intros [[<-|I]|I]; auto. right. now apply memb_in.
  - destruct (IH (acc ++ [y]) (same_snoc _ _ N M)) as [N' H]. split; [exact N'|]. intro x. rewrite H, in_app_iff. cbn. tauto.
Qed.
Lemma same_accept l m : (forall x, In x l <-> In x m) -> same (accept l []) m.
Proof.
  intro H. destruct (accept_ok l [] (NoDup_nil _)) as [N A]. split; [exact N|]. intro x. rewrite A, H. cbn. tauto.
Qed.
Definition related (froze : list nat) (w : world) (p : pyworld) : Prop :=
  Forall2 same (sets w) (p_sets p) /\ Forall2 (fun f m => same (items w f) m) (frozen w) (p_frozen p) /\
  Forall (fun f => match f with Own _ => True | OfSet n => In n froze /\ n < length (sets w) end) (frozen w).
Lemma nth_same l m n : Forall2 same l m -> same (nth n l []) (nth n m []).
Proof.
  intro F. revert n. induction F as [|a b l m S F IH]; intros [|n]; cbn; auto; (split; [constructor|tauto]).
Qed.
Lemma nth_frozen w fs m n : Forall2 (fun f m => same (items w f) m) fs m -> same (items w (nth n fs (Own []))) (nth n m []).
Proof.
  intro F. revert n. induction F as [|a b l m S F IH]; intros [|n]; cbn; auto; (split; [constructor|tauto]).
Qed.
Lemma set_nth_other l : forall n v k, k <> n -> nth k (set_nth l n v) [] = nth k l [].
Proof. induction l as [|x l IH]; intros [|n] v [|k] N; cbn; auto; try congruence. Qed.
Lemma set_nth_length l : forall n v, length (set_nth l n v) = length l.
Proof. induction l as [|x l IH]; intros [|n] v; cbn; auto. Qed.
Lemma change_same f l m n v : Forall2 same l m -> same v (f (nth n m [])) -> Forall2 same (set_nth l n v) (change f n m).
Proof.
  intros F S. revert n S. induction F as [|a b l m SA F IH]; intros [|n] S; unfold change; cbn; constructor; auto. apply IH. exact S.
Qed.
Lemma source_same froze w p s : related froze w p -> forall x, In x (iterate w s) <-> In x (elements p s).
Proof.
  intros (A & B & _) x. destruct s as [n|n|l]; cbn; [apply (nth_same _ _ n A)|apply (nth_frozen _ _ _ n B)|tauto].
Qed.
(** A set at a valid position only *)
Definition in_range (w : world) (o : op) : Prop := match o with NewFrozen (SSet n) => n < length (sets w) | _ => True end.
Fixpoint in_ranges (sets_made : nat) (ops : list op) : Prop :=
  match ops with
  | [] => True
  | NewSet _ :: ops => in_ranges (S sets_made) ops
  | NewFrozen (SSet n) :: ops => n < sets_made /\ in_ranges sets_made ops
  | _ :: ops => in_ranges sets_made ops
  end.
Lemma keep froze w w' fs qs :
  (forall k, In k froze -> k < length (sets w) -> nth k (sets w') [] = nth k (sets w) []) ->
  Forall2 (fun f m => same (items w f) m) fs qs ->
  Forall (fun f => match f with Own _ => True | OfSet n => In n froze /\ n < length (sets w) end) fs ->
  Forall2 (fun f m => same (items w' f) m) fs qs.
Proof.
  intros H B. induction B as [|f m fl ql S B IH]; intro C; constructor; inversion C as [|? ? CF CR]; subst; [|now apply IH].
  destruct f as [l|k]; [exact S|]. cbn [items] in *. destruct CF as [C1 C2]. now rewrite H.
Qed.
Lemma frozen_write froze w p n v : related froze w p -> ~ In n froze ->
  Forall2 (fun f m => same (items (World (set_nth (sets w) n v) (frozen w)) f) m) (frozen w) (p_frozen p) /\
  Forall (fun f => match f with Own _ => True | OfSet k => In k froze /\ k < length (set_nth (sets w) n v) end) (frozen w).
Proof.
  intros (_ & B & C) N. rewrite set_nth_length. split; [|exact C]. apply keep with froze w; auto.
  intros k K _. cbn [sets]. apply set_nth_other. congruence.
Qed.
Lemma frozen_new froze w p l : related froze w p ->
  Forall2 (fun f m => same (items (World (sets w ++ [l]) (frozen w)) f) m) (frozen w) (p_frozen p) /\
  Forall (fun f => match f with Own _ => True | OfSet k => In k froze /\ k < length (sets w ++ [l]) end) (frozen w).
Proof.
  intros (_ & B & C). split.
  - apply keep with froze w; auto. intros k _ K. cbn [sets]. now apply app_nth1.
  - revert C. apply Forall_impl. intros [x|k]; [auto|]. rewrite app_length. cbn. intros [H1 H2]. split; [exact H1|lia].
Qed.
Lemma run_ok ops : forall froze w p, related froze w p -> kept froze ops -> in_ranges (length (sets w)) ops -> run w ops = pyrun p ops.
Proof.
  induction ops as [|o ops IH]; intros froze w p R K I; [reflexivity|]. destruct o as [s|s|n x|n x|n x|n x|n|n]; cbn [run pyrun step pystep kept in_ranges] in *.
  - f_equal. apply IH with froze; auto.
    + destruct (frozen_new froze w p (make_set w s) R) as [B C]. split; [|split; [exact B|exact C]]. cbn [sets p_sets]. apply Forall2_app; [apply R|].
      constructor; [|constructor]. destruct s as [n|n|l]; cbn [make_set]; try (apply same_accept; apply (source_same froze w p _ R)).
      cbn. destruct R as (_ & RB & _). apply (nth_frozen _ _ _ n RB).
    + cbn [sets]. now rewrite app_length, Nat.add_comm.
  - f_equal. destruct s as [n|n|l].
    + destruct I as [I1 I2]. apply IH with (n :: froze); auto. destruct R as (A & B & C). split; [exact A|]. cbn [frozen p_frozen]. split.
      * apply Forall2_app; [exact B|]. constructor; [|constructor]. cbn. now apply nth_same.
      * apply Forall_app. split; [|repeat constructor; auto]. revert C. apply Forall_impl. intros [x|k]; [auto|]. intros [H1 H2]. split; [now right|exact H2].
    + apply IH with froze; auto. pose proof (source_same froze w p (SFrozen n) R) as SO. destruct R as (A & B & C). split; [exact A|].
      cbn [frozen p_frozen]. split; [|apply Forall_app; split; [exact C|repeat constructor]]. apply Forall2_app; [exact B|].
      constructor; [|constructor]. now apply same_accept.
    + apply IH with froze; auto. pose proof (source_same froze w p (SOther l) R) as SO. destruct R as (A & B & C). split; [exact A|].
      cbn [frozen p_frozen]. split; [|apply Forall_app; split; [exact C|repeat constructor]]. apply Forall2_app; [exact B|].
      constructor; [|constructor]. now apply same_accept.
  - f_equal. destruct K as [N K]. apply IH with froze; auto; [|cbn [sets]; now rewrite set_nth_length].
    destruct (frozen_write froze w p n (if memb x (nth n (sets w) []) then nth n (sets w) [] else nth n (sets w) [] ++ [x]) R N) as [B C].
    split; [|split; [exact B|exact C]]. cbn [sets p_sets]. destruct R as (A & _). apply change_same; [exact A|].
    destruct (nth_same _ _ n A) as [ND S]. destruct (memb x (nth n (sets w) [])) eqn:M.
    + split; [exact ND|]. intro y. cbn. rewrite <- S. split; [tauto|]. intros [<-|H]; [now apply memb_in|exact H].
    + split; [now apply same_snoc|]. intro y. rewrite in_app_iff. cbn. rewrite <- S. tauto.
  - f_equal. destruct K as [N K]. apply IH with froze; auto; [|cbn [sets]; now rewrite set_nth_length].
    destruct (frozen_write froze w p n (filter (fun y => negb (Z.eqb y x)) (nth n (sets w) [])) R N) as [B C].
    split; [|split; [exact B|exact C]]. cbn [sets p_sets]. destruct R as (A & _). apply change_same; [exact A|].
    destruct (nth_same _ _ n A) as [ND S]. split; [now apply NoDup_filter|]. intro y. rewrite filter_In, negb_true_iff, Z.eqb_neq, S.
    split; [intros [H1 H2]; now apply in_in_remove|intro H; apply in_remove in H; tauto].
  - rewrite (memb_has x _ _ (nth_same _ _ n (proj1 R))). f_equal. now apply IH with froze.
  - rewrite (memb_has x _ _ (nth_frozen _ _ _ n (proj1 (proj2 R)))). f_equal. now apply IH with froze.
  - rewrite (length_size _ _ (nth_same _ _ n (proj1 R))). f_equal. now apply IH with froze.
  - rewrite (length_size _ _ (nth_frozen _ _ _ n (proj1 (proj2 R)))). f_equal. now apply IH with froze.
Qed.

(** As long as no set is changed after a frozenset was made from it, sets and frozensets made from
    sets, frozensets and other iterables have the elements Python gives them.  Missing: changes
    after that, refuted below. *)
Theorem frozen_sets_partial ops : kept [] ops -> in_ranges 0 ops -> run (World [] []) ops = pyrun (Py [] []) ops.
Proof. intros K I. apply run_ok with []; auto. repeat split; constructor. Qed.
Print Assumptions frozen_sets_partial.
Definition history : list op :=
  [NewSet (SOther [1; 2; 2]%Z); NewSet (SSet 0); Add 1 3%Z; NewFrozen (SSet 1); NewSet (SFrozen 0); Discard 2 1%Z;
   SizeFrozen 0; InFrozen 0 1%Z; InSet 2 1%Z; InSet 0 3%Z].
Example history_example : kept [] history /\ in_ranges 0 history /\
  run (World [] []) history = [Nothing; Nothing; Nothing; Nothing; Nothing; Nothing; Size 3; Truth true; Truth false; Truth false].
Proof. split; [cbn; intuition discriminate|]. split; [cbn; lia|reflexivity]. Qed.

(** A change of the set shows in the frozenset *)
Theorem frozen_changes_refuted : exists ops,
  run (World [] []) ops = [Nothing; Nothing; Nothing; Truth true; Size 2] /\
  pyrun (Py [] []) ops = [Nothing; Nothing; Nothing; Truth false; Size 1].
Proof. now exists [NewSet (SOther [1%Z]); NewFrozen (SSet 0); Add 0 5%Z; InFrozen 0 5%Z; SizeFrozen 0]. Qed.
Print Assumptions frozen_changes_refuted.
