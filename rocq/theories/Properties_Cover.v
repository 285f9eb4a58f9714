(** C66: which examples are shown.  C68: generated tests. *)
From Coq Require Import List Bool ZArith Lia Permutation String Ascii DecimalString DecimalNat DecimalFacts.
From Verif Require Import Cover_Model Cover_Spec Cover_Proofs FlexEq_Model FlexEq_Spec FlexEq_Proofs Pytest_Model.
Import ListNotations.
Open Scope list_scope.
Open Scope Z_scope.

Section Cover.
  Context {X : Type}.
  Variable cov : X -> list Z.
  Variable text : X -> Z.

  (** "crosshair cover": the examples are chosen greedily, shorter ones being preferred. *)
  Theorem examples_chosen_greedily paths :
    greedy (fun x o => In o (cov x)) (fun y x => text y < text x) paths (selected cov text OPCODE paths).
  Proof.
    rewrite (selected_gsel cov text OPCODE).
    destruct (gsel_ok (fun x o => In o (cov x)) (cov_dec cov) (gain cov) (fun x => - text x) (gain_ok cov)
      true (List.length paths) paths [] (le_n _)) as (rest & Q & _ & C & T).
    exists rest. split; auto. split; [exact C|]. intros b x a E. destruct (T b x a E) as (n & Nx & N0 & M).
    exists n. split; auto. split; auto. intros y m I Ny. destruct (M y m I Ny) as [|[? ?]]; [lia|]. right. lia.
  Qed.

  (** With --coverage_type=path every path is shown, the ones that cover most first. *)
  Theorem all_paths_shown paths :
    Permutation (selected cov text PATH paths) paths /\
    forall before x after, selected cov text PATH paths = before ++ x :: after ->
      exists n, news (fun x o => In o (cov x)) before x n /\
        forall y m, In y after -> news (fun x o => In o (cov x)) before y m ->
          (m < n)%nat \/ m = n /\ text x <= text y.
  Proof.
    rewrite (selected_gsel cov text PATH).
    destruct (gsel_ok (fun x o => In o (cov x)) (cov_dec cov) (gain cov) (fun x => - text x) (gain_ok cov)
      false (List.length paths) paths [] (le_n _)) as (rest & Q & R & C & T).
    specialize (R eq_refl). subst rest. rewrite List.app_nil_r in Q. split; auto. intros b x a E. destruct (T b x a E) as (n & Nx & N0 & M).
    exists n. split; auto. intros y m I Ny. rewrite List.app_nil_r in M. destruct (M y m I Ny) as [|[? ?]]; [lia|]. right. lia.
  Qed.
End Cover.

Section Diffs.
  Context {X : Type}.
  Variable cov1 cov2 : X -> list Z.
  Variable text : X -> Z.
  Variable all1 all2 : list Z.

  (** "crosshair diffbehavior": the differences shown cover, in both functions, all that
      the differences found cover.  (Ties are not broken as intended, see below.) *)
  Theorem differences_chosen_greedily_partial diffs :
    (forall d, In d diffs -> incl (cov1 d) all1 /\ incl (cov2 d) all2) ->
    greedy (fun d (o : bool * Z) => In (snd o) (if fst o then cov2 d else cov1 d))
      (fun y x => text x < text y) diffs (picked cov1 cov2 text all1 all2 diffs).
  Proof.
    intro I0. rewrite (picked_gsel cov1 cov2 text all1 all2) by (apply Forall_forall; exact I0).
    assert (S : forall l o, covered (fun d (o : bool * Z) => In (snd o) (if fst o then cov2 d else cov1 d)) l o <->
                            covered (cov_both cov1 cov2) l o).
    { intros l [[] o]; reflexivity. }
    assert (SN : forall l x n, news (fun d (o : bool * Z) => In (snd o) (if fst o then cov2 d else cov1 d)) l x n <->
                            news (cov_both cov1 cov2) l x n).
    { intros l x n. split; intros (os & D & L & H); exists os; repeat split; auto; intros; try (apply H; auto);
        specialize (H o); rewrite <- ?S, ?S in *; destruct o as [[] o]; cbn in *; tauto. }
    destruct (gsel_ok (cov_both cov1 cov2) (cov_both_dec cov1 cov2) (gain2 cov1 cov2) text (gain2_ok cov1 cov2 text)
      true (List.length diffs) diffs [] (le_n _)) as (rest & Q & _ & C & T).
    exists rest. split; auto. split; [intro o; rewrite !S; apply C|].
    intros b x a E. destruct (T b x a E) as (n & Nx & N0 & M).
    exists n. split; [now apply SN|]. split; auto. intros y m I Ny. apply SN in Ny.
    destruct (M y m I Ny) as [|[? ?]]; [lia|]. right. lia.
  Qed.

  (** If there is a difference that executes anything, one is shown. *)
  Theorem a_difference_is_shown diffs :
    (forall d, In d diffs -> incl (cov1 d) all1 /\ incl (cov2 d) all2) ->
    (exists d o, In d diffs /\ In o (cov1 d ++ cov2 d)) ->
    picked cov1 cov2 text all1 all2 diffs <> [].
  Proof.
    intros I (d & o & Hd & Ho) E.
    destruct (differences_chosen_greedily_partial diffs I) as (rest & _ & C & _). rewrite E in C.
    apply in_app_or in Ho as [Ho|Ho].
    - destruct (proj2 (C (false, o))) as (z & [] & _). exists d. auto.
    - destruct (proj2 (C (true, o))) as (z & [] & _). exists d. auto.
  Qed.
End Diffs.

(** An example is a pair of the opcodes it covers and the length of its text. *)
Definition xcov (x : list Z * Z) := fst x.
Definition xtext (x : list Z * Z) := snd x.
Example examples_chosen_greedily_example :
  selected xcov xtext OPCODE [([1;2], 4); ([1;2;3], 9); ([2;3;1], 5); ([4], 7)] = [([2;3;1], 5); ([4], 7)].
Proof. reflexivity. Qed.
Example all_paths_shown_example :
  selected xcov xtext PATH [([1;2], 4); ([1;2;3], 9); ([2;3;1], 5); ([4], 7)] =
    [([2;3;1], 5); ([4], 7); ([1;2], 4); ([1;2;3], 9)].
Proof. reflexivity. Qed.
Example differences_chosen_greedily_example :
  let diffs := [([1], [7;8], 3); ([1;2], [8], 4); ([2], [7], 3)] in
  let c1 := fun d : list Z * list Z * Z => fst (fst d) in let c2 := fun d : list Z * list Z * Z => snd (fst d) in
  (forall d, In d diffs -> incl (c1 d) [1;2;3] /\ incl (c2 d) [7;8;9]) /\
  picked c1 c2 snd [1;2;3] [7;8;9] diffs = [([1;2], [8], 4); ([1], [7;8], 3)].
Proof.
  split; [|reflexivity]. intros d [<-|[<-|[<-|[]]]]; split; intros x; cbn; tauto.
Qed.

(** diff_scorer says: "We break ties on smaller examples".  The larger one is taken. *)
Theorem ties_refuted :
  exists diffs : list (list Z * Z),
    ~ greedy (fun d (o : bool * Z) => In (snd o) (if fst o then [] else fst d))
        (fun y x => snd y < snd x) diffs (picked fst (fun _ => []) snd [1] [] diffs).
Proof.
  exists [([1], 5); ([1], 3)]. intros (rest & Q & _ & T). cbn in Q.
  destruct (T [] ([1], 5) [] eq_refl) as (n & Nn & _ & M).
  assert (E : rest = [([1], 3)]) by (apply Permutation_cons_inv in Q; now apply Permutation_sym, Permutation_length_1_inv in Q).
  subst rest. assert (N1 : forall t, news (fun (d : list Z * Z) (o : bool * Z) => In (snd o) (if fst o then [] else fst d)) [] ([1], t) 1).
  { intro t. exists [(false, 1)]. split; [repeat constructor; auto|]. split; auto. intros [[] o]; cbn; split.
    - intros [H|[]]. discriminate.
    - intros [[] _].
    - intros [H|[]]. inversion H. split; auto. intros (x & [] & _).
    - intros [[->|[]] _]. auto. }
  assert (n = 1%nat) by (eapply news_fun; [exact Nn|apply N1]). subst n.
  destruct (M ([1], 3) 1%nat (or_introl eq_refl) (N1 3)) as [H|[_ H]]; [lia|]. apply H. cbn. lia.
Qed.

(** A greedy choice may show an example that the later ones make superfluous. *)
Theorem choice_minimal_refuted :
  exists paths, exists x before after, selected xcov xtext OPCODE paths = before ++ x :: after /\
    forall o, In o (xcov x) -> covered (fun x o => In o (xcov x)) (before ++ after) o.
Proof.
  exists [([2;3;4;5], 1); ([1;2;3], 1); ([4;5;6], 1)], ([2;3;4;5], 1), [], [([1;2;3], 1); ([4;5;6], 1)].
  split; [reflexivity|]. cbn. intros o H.
  assert (H' : (o = 2 \/ o = 3) \/ (o = 4 \/ o = 5)) by intuition.
  destruct H' as [H'|H']; [exists ([1;2;3], 1)|exists ([4;5;6], 1)]; cbn; intuition.
Qed.

(** *** C68 *)
Open Scope string_scope.
Lemma append_inj (s a b : string) : s ++ a = s ++ b -> a = b.
Proof. induction s as [|c s IH]; cbn; intro H; auto. injection H as H. auto. Qed.
Lemma to_uint_nonnil n : Nat.to_uint n <> Decimal.Nil.
Proof.
  intro H. pose proof (DecimalNat.Unsigned.of_to n) as A. rewrite H in A. cbn in A. subst n. discriminate H.
Qed.
Lemma str_of_inj n m : str_of n = str_of m -> n = m.
Proof.
  intro H. unfold str_of in H. apply (f_equal NilZero.uint_of_string) in H.
  rewrite !NilZero.usu in H by apply to_uint_nonnil.
  injection H as H. now apply DecimalNat.Unsigned.to_uint_inj.
Qed.
(** The tests generated for a function have different names, so none hides another.  (The tests
    of different functions may clash, see below.) *)
Theorem test_names_distinct_partial fn n : NoDup (test_names fn n).
Proof.
  unfold test_names. apply FinFun.Injective_map_NoDup; [|apply seq_NoDup].
  intros i j H. unfold test_name in H. apply append_inj, append_inj in H.
  destruct (Nat.eqb i 0) eqn:Ei, (Nat.eqb j 0) eqn:Ej; try discriminate H;
    rewrite ?Nat.eqb_eq, ?Nat.eqb_neq in *; [lia|].
  injection H as H. apply str_of_inj in H. lia.
Qed.
Example test_names_example : test_names "A.f" 3 = ["test_A_f"; "test_A_f_2"; "test_A_f_3"].
Proof. reflexivity. Qed.
Theorem test_numbered fn n : (0 < n)%nat ->
  exists d, test_name fn n = "test_" ++ underscored fn ++ "_" ++ NilZero.string_of_uint d /\ Nat.of_uint d = S n.
Proof.
  intro H. exists (Nat.to_uint (n + 1)). split; [|rewrite DecimalNat.Unsigned.of_to; lia].
  unfold test_name. destruct (Nat.eqb n 0) eqn:E; [apply Nat.eqb_eq in E; lia|reflexivity].
Qed.
Example test_numbered_example : test_name "f" 11 = "test_f_12".
Proof. reflexivity. Qed.
Theorem file_names_distinct_refuted :
  exists f g, f <> g /\ ~ NoDup (file_names [(f, 2%nat); (g, 1%nat)]).
Proof.
  exists "f", "f_2". split; [discriminate|]. intro D. apply NoDup_cons_iff in D as [_ D]. apply NoDup_cons_iff in D as [D _]. apply D. now left.
Qed.
Theorem file_names_distinct_refuted2 :
  exists f g, f <> g /\ ~ NoDup (file_names [(f, 1%nat); (g, 1%nat)]).
Proof.
  exists "A.f", "A_f". split; [discriminate|]. intro D. apply NoDup_cons_iff in D as [D _]. apply D. now left.
Qed.

(** A generated test passes if the function does what it did: [ret] and [exc] are what it does
    when the test is run. *)
Definition passes (w : written) (ret : val) (exc : option Z) : Prop :=
  match w with
  | WReturns v => exc = None /\ PyEq ret v
  | WRaises ty => exc = Some ty
  end.
Lemma pyeq_refl v : plain v -> wf v -> PyEq v v.
Proof.
  intros P W. apply plain_alike; auto. destruct (plain_parts v P) as [R N]. apply alike_iff; auto. now apply flex_refl.
Qed.
(** The values in a test are written as source text, so what a test compares with is a new
    object equal to the one recorded, if it is made of numbers, strings and containers. *)
Theorem generated_tests_pass_partial ret exc : plain ret -> wf ret -> passes (written_for ret exc) ret exc.
Proof. intros P W. unfold written_for, passes. destruct exc; auto. split; auto. now apply pyeq_refl. Qed.
Example generated_tests_pass_example :
  plain (VDict [(1%Z, VSeq 0 [VNum 2; VStr [104%Z]])]) /\ wf (VDict [(1%Z, VSeq 0 [VNum 2; VStr [104%Z]])]).
Proof. cbn. repeat split; auto. repeat constructor. intros []. Qed.
(** The test of a function that returns NaN fails, although the function still returns it. *)
Theorem generated_tests_pass_refuted :
  exists ret, forall ret', (exists i, ret' = VNan i) -> (exists i, ret = VNan i) /\ ~ passes (written_for ret None) ret' None.
Proof. exists (VNan 0). intros ret' (i & ->). split; [eauto|]. intros [_ H]. inversion H. Qed.

Print Assumptions examples_chosen_greedily.
Print Assumptions all_paths_shown.
Print Assumptions differences_chosen_greedily_partial.
Print Assumptions a_difference_is_shown.
Print Assumptions ties_refuted.
Print Assumptions choice_minimal_refuted.
Print Assumptions test_names_distinct_partial.
Print Assumptions test_numbered.
Print Assumptions file_names_distinct_refuted.
Print Assumptions file_names_distinct_refuted2.
Print Assumptions generated_tests_pass_partial.
Print Assumptions generated_tests_pass_refuted.
