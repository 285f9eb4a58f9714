(** C144: the cache of stack layouts.  Model: [StackCache_Model]. *)
From Coq Require Import List Arith Lia Permutation.
Import ListNotations.
From Verif Require Import StackCache_Model.

Section Cache.
Variable layout : Type.
Variable mark : nat -> layout.
Notation cache := (cache layout).
Notation none := (none layout mark).

Definition sound (l : cache) : Prop :=
  (forall c s, In (c, s) l -> s = mark c) /\ NoDup (map fst l) /\ length l <= capacity.

Lemma write_mid (a b : cache) x y : write layout (a ++ x :: b) (length a) y = a ++ y :: b.
Proof.
  unfold write. rewrite firstn_app, Nat.sub_diag, firstn_all. cbn [firstn]. rewrite app_nil_r. f_equal. f_equal.
  change (S (length a)) with (1 + length a). rewrite skipn_app, skipn_all2 by lia. replace (1 + length a - length a) with 1 by lia. reflexivity.
Qed.
Lemma nth_mid (a b : cache) x : nth (length a) (a ++ x :: b) none = x.
Proof. rewrite app_nth2, Nat.sub_diag by lia. reflexivity. Qed.
Lemma swapped (l : cache) mid pos : mid < pos -> pos < length l ->
  Permutation l (write layout (write layout l pos (nth mid l none)) mid (nth pos l none)).
Proof.
  intros M P. destruct (nth_split l none P) as (u & c & El & Lu). set (y := nth pos l none) in *.
  assert (M' : mid < length u) by lia. destruct (nth_split u none M') as (a & b & Eu & La). set (x := nth mid u none) in *.
  assert (Ex : nth mid l none = x) by (rewrite El, app_nth1 by lia; reflexivity). rewrite Ex, El, <- Lu, write_mid, Eu, <- La, <- !app_assoc.
  cbn [app]. rewrite write_mid. apply Permutation_app_head.
  transitivity (y :: b ++ x :: c); [|reflexivity].
  transitivity (x :: y :: b ++ c); [apply perm_skip; symmetry; apply Permutation_middle|].
  transitivity (y :: x :: b ++ c); [apply perm_swap|]. apply perm_skip, Permutation_middle.
Qed.
Lemma position_le code (l : cache) : position layout code l <= length l.
Proof. induction l as [|e l IH]; cbn; [lia|]. destruct (Nat.eqb (fst e) code); lia. Qed.
Lemma position_found code (l : cache) : position layout code l < length l -> fst (nth (position layout code l) l none) = code.
Proof.
  induction l as [|e l IH]; cbn; [lia|]. destruct (Nat.eqb_spec (fst e) code); [auto|]. intros H. apply IH. lia.
Qed.
Lemma position_absent code (l : cache) : position layout code l = length l -> ~ In code (map fst l).
Proof.
  induction l as [|e l IH]; cbn; [auto|]. destruct (Nat.eqb_spec (fst e) code); [discriminate|]. intros H [H1|H1]; [contradiction|]. apply IH; [lia|exact H1].
Qed.
Lemma sub_sound (l : cache) n : sound l -> sound (firstn n l).
Proof.
  intros (A & B & C). rewrite <- (firstn_skipn n l) in A, B. repeat split.
  - intros c s I. apply A, in_app_iff. now left.
  - rewrite map_app in B. revert B. generalize (map fst (skipn n l)). induction (map fst (firstn n l)) as [|x r IH]; intros k B; [constructor|].
    inversion B as [|? ? N D]; subst. constructor; [intros I; apply N, in_app_iff; now left|now apply (IH k)].
  - rewrite firstn_length. lia.
Qed.
Lemma add_sound code (l : cache) : sound l -> ~ In code (map fst l) -> length l < capacity -> sound (l ++ [(code, mark code)]).
Proof.
  intros (A & B & C) N L. repeat split.
  - intros c s I. apply in_app_iff in I as [I|[I|[]]]; [now apply A|]. now injection I as <- <-.
  - rewrite map_app. apply (Permutation_NoDup (Permutation_cons_append _ _)). now constructor.
  - rewrite app_length. cbn [length]. lia.
Qed.
Lemma ensured code (l : cache) : sound l ->
  let '(pos, l') := ensure layout mark code l in sound l' /\ pos < length l' /\ fst (nth pos l' none) = code.
Proof.
  intros S. pose proof (position_le code l) as LE. unfold ensure. destruct (Nat.eqb_spec (position layout code l) (length l)) as [E|E].
  - pose proof (position_absent code l E) as N. destruct (Nat.eqb_spec (length l) capacity) as [F|F].
    + assert (G : length (firstn (capacity - 1) l) = capacity - 1) by (rewrite firstn_length, F; unfold capacity; lia).
      repeat split; try (apply add_sound; [now apply sub_sound| |rewrite G; unfold capacity; lia]).
      all: try (intros I; apply N; rewrite <- (firstn_skipn (capacity - 1) l), map_app; apply in_app_iff; now left).
      * rewrite app_length, G. cbn. lia.
      * rewrite <- G at 1. now rewrite nth_mid.
    + assert (G : length l < capacity) by (destruct S as (_ & _ & S); lia). repeat split; try now apply add_sound.
      * rewrite app_length. cbn. lia.
      * rewrite E. now rewrite nth_mid.
  - repeat split; try apply S; try lia. apply position_found. lia.
Qed.
Lemma permuted (l l' : cache) : Permutation l l' -> sound l -> sound l'.
Proof.
  intros P (A & B & C). repeat split.
  - intros c s I. apply A. now apply (Permutation_in _ (Permutation_sym P)).
  - now apply (Permutation_NoDup (Permutation_map fst P)).
  - now rewrite <- (Permutation_length P).
Qed.
Lemma get_sound rand code (l : cache) : sound l ->
  fst (get_stacks layout mark rand code l) = mark code /\ sound (snd (get_stacks layout mark rand code l)) /\
  In code (map fst (snd (get_stacks layout mark rand code l))).
Proof.
  intros S. unfold get_stacks. pose proof (ensured code l S) as H. destruct (ensure layout mark code l) as [pos l']. destruct H as (S' & P & E).
  cbn [fst snd].
  assert (I : In (nth pos l' none) l') by now apply nth_In.
  assert (Q : Permutation l' (if 0 <? pos then write layout (write layout l' pos (nth (rand mod pos) l' none)) (rand mod pos) (nth pos l' none) else l')).
  { destruct (Nat.ltb_spec 0 pos); [|reflexivity]. apply swapped; [apply Nat.mod_upper_bound; lia|exact P]. }
  split; [|split].
  - destruct S' as (A & _). destruct (nth pos l' none) as [c s]. cbn in E |- *. subst c. now apply A.
  - now apply (permuted l').
  - rewrite <- E. apply in_map. now apply (Permutation_in _ Q).
Qed.

(** C144.  Whatever code runs in whatever order, and whatever the random numbers: the layout used for a code object is the one
    computed from this code object, and at most 64 code objects are kept, none of them twice. *)
Theorem C144_layouts (rs : list (nat * nat)) :
  fst (requests layout mark [] rs) = map (fun r => mark (snd r)) rs /\
  length (snd (requests layout mark [] rs)) <= 64 /\ NoDup (map fst (snd (requests layout mark [] rs))).
Proof.
  assert (H : forall l, sound l -> fst (requests layout mark l rs) = map (fun r => mark (snd r)) rs /\ sound (snd (requests layout mark l rs))).
  { induction rs as [|[rand code] rs IH]; intros l S; [now split|]. cbn [requests map snd].
    pose proof (get_sound rand code l S) as (A & B & _). destruct (get_stacks layout mark rand code l) as [s l1]. cbn [fst snd] in A, B.
    destruct (IH l1 B) as [C D]. destruct (requests layout mark l1 rs) as [ss l2]. cbn [fst snd] in *. split; [now rewrite A, C|exact D]. }
  destruct (H []) as (A & _ & B & C); [repeat split; [intros c s []|constructor|unfold capacity; cbn; lia]|]. repeat split; assumption.
Qed.
(** C144.  The code object asked for last is always kept, so that a loop does not compute its layout again: right after
    any history, asking again leaves the kept set unchanged. *)
Theorem C144_kept (rs : list (nat * nat)) (rand rand' code : nat) :
  let l := snd (requests layout mark [] (rs ++ [(rand, code)])) in
  Permutation l (snd (get_stacks layout mark rand' code l)).
Proof.
  assert (H : forall l0, sound l0 -> sound (snd (requests layout mark l0 (rs ++ [(rand, code)]))) /\ In code (map fst (snd (requests layout mark l0 (rs ++ [(rand, code)]))))).
  { induction rs as [|[r c] rs IH]; intros l S; cbn [app requests].
    - pose proof (get_sound rand code l S) as (_ & A & B). now destruct (get_stacks layout mark rand code l) as [s l1].
    - pose proof (get_sound r c l S) as (_ & A & _). destruct (get_stacks layout mark r c l) as [s l1]. cbn [fst snd] in A.
      specialize (IH l1 A). now destruct (requests layout mark l1 (rs ++ [(rand, code)])) as [ss l2]. }
  destruct (H []) as [S I]; [repeat split; [intros c s []|constructor|unfold capacity; cbn; lia]|]. cbv zeta.
  set (l := snd _) in *. unfold get_stacks, ensure. destruct (Nat.eqb_spec (position layout code l) (length l)) as [E|E].
  - destruct (position_absent code l E I).
  - pose proof (position_le code l). cbn [snd]. destruct (Nat.ltb_spec 0 (position layout code l)); [|reflexivity].
    apply swapped; [apply Nat.mod_upper_bound; lia|lia].
Qed.
End Cache.
Print Assumptions C144_layouts.
Print Assumptions C144_kept.
(** 66 code objects, the first of them again at the end: it has been purged or not, and its layout is right *)
Example C144_layouts_witness :
  let rs := map (fun c => (c * 7, c)) (seq 1 66) ++ [(3, 1); (5, 64)] in
  let '(ls, l) := requests nat (fun c => c * 2) [] rs in
  length rs = 68 /\ length l = 64 /\ nth 66 ls 0 = 2 /\ nth 67 ls 0 = 128.
Proof. vm_compute. repeat split. Qed.
Example C144_kept_witness : snd (requests nat (fun c => c * 2) [] ([(0, 5); (1, 6)] ++ [(0, 7)])) <> [].
Proof. vm_compute. discriminate. Qed.
