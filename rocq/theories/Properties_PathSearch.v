(** C34: minimisation *)
From Coq Require Import ZArith List Bool Lia Sorted.
From Verif Require Import Py PathSearch_Model PathSearch_Spec PathSearch_Proofs.
Import ListNotations.
Open Scope Z_scope.

(** However many paths there are and whatever scores they admit, the search ends, the best
    score is the least score that is not negative over all of them (none if there is
    none), and the scores announced strictly decrease down to it. *)
Theorem C34_minimise : forall paths : list ((cons -> bool) * (Z -> Prop)),
  Forall2 decides (map fst paths) (map snd paths) ->
  exists N, forall fuel, (N <= fuel)%nat -> exists b shown, search fuel (map fst paths) None [] = Ok (b, shown) /\
    best_of (fun s => Exists (fun p => snd p s) paths) b /\ StronglySorted Z.lt shown /\
    match shown with [] => True | x :: _ => b = Some x end.
Proof.
  intros paths H. destruct (search_ok paths H None []) as (N & HN); [discriminate|exact I|constructor|].
  exists N. intros fuel F. destruct (HN fuel F) as (b & l & E & B & R). exists b, l. split; [exact E|]. split; [|exact R].
  destruct b as [b|]; cbn in *.
  - destruct B as (P & [Q|Q] & M); [discriminate|]. repeat split; auto.
  - auto.
Qed.
(** When a path improves the score, the input written out has exactly that score. *)
Theorem C34_example_has_score : forall sat scores best, decides sat scores -> (forall b, best = Some b -> 0 <= b) ->
  exists N, forall fuel m c, (N <= fuel)%nat -> one_path sat fuel best = Ok (Some (m, c)) ->
    least scores m /\ (forall s, scores s -> meets c s -> s = m) /\ forall b, best = Some b -> m < b.
Proof.
  intros sat scores best D B. destruct (one_path_ok sat scores D best B) as (N & H). exists N. intros fuel m c F E.
  destruct (H fuel F) as [(m' & c' & E' & L & P & X)|(E' & _)]; [|congruence].
  rewrite E in E'. injection E' as <- <-. split; [assumption|]. split; [|assumption].
  intros s S M. apply P. split; assumption.
Qed.

Definition sat_of (l : list Z) (c : cons) : bool :=
  existsb (fun s => match lo c with Some x => x <=? s | None => true end && match hi c with Some x => s <? x | None => true end) l.
Lemma sat_of_decides l : decides (sat_of l) (fun s => In s l).
Proof.
  intro c. unfold sat_of. rewrite existsb_exists. unfold meets. split; intros (s & I & H); exists s; (split; [assumption|]).
  - apply andb_prop in H as [H1 H2]. split; intros x E; rewrite E in *; lia.
  - destruct H as [H1 H2]. apply andb_true_intro. destruct (lo c) as [x|], (hi c) as [y|]; split; auto.
    all: try specialize (H1 _ eq_refl); try specialize (H2 _ eq_refl); lia.
Qed.
Example C34_ex :
  Forall2 decides (map fst [(sat_of [-3; 250000; 123456], fun s => In s [-3; 250000; 123456]); (sat_of [-1], fun s => In s [-1]); (sat_of [77; 5000], fun s => In s [77; 5000])])
    (map snd [(sat_of [-3; 250000; 123456], fun s => In s [-3; 250000; 123456]); (sat_of [-1], fun s => In s [-1]); (sat_of [77; 5000], fun s => In s [77; 5000])]) /\
  search 60 [sat_of [-3; 250000; 123456]; sat_of [-1]; sat_of [77; 5000]] None [] = Ok (Some 77, [77; 123456]).
Proof. split; [repeat constructor; apply sat_of_decides|vm_compute; reflexivity]. Qed.

Print Assumptions C34_minimise.
Print Assumptions C34_example_has_score.
