(** C172: bytes and bytearrays own their contents. *)
From Coq Require Import ZArith List Bool Lia.
From Verif Require Import Py PySeq_Spec ByteAlias_Model ByteAlias_Spec.
Import ListNotations.
Open Scope Z_scope.

(** Programs that make bytearrays from bytes and bytearrays only, and do not use tobytes *)
Definition safe (h : list pcell) (o : op) : Prop :=
  match o with
  | ArrOf x => match nth_error h x with Some (Has AList _) | Some (Shows _ _ _) => False | _ => True end
  | ToBytes _ => False
  | _ => True
  end.
Fixpoint safe_run (h : list pcell) (ops : list op) : Prop :=
  match ops with
  | [] => True
  | o :: ops => safe h o /\ match p_step h o with Ok h' => safe_run h' ops | Err _ => True end
  end.

(** The objects of the model that Python's stand for *)
Definition conv (c : pcell) : cell :=
  match c with
  | Has AList l => CList l
  | Has AnArr l => CArr (SOwn l)
  | Has ABytes l => CBytes (SOwn l)
  | Shows x a b => CView x (Z.of_nat a) (Z.of_nat b)
  end.
(** A view shows bytes or a bytearray *)
Definition proper (h : list pcell) : Prop :=
  forall x y a b, nth_error h x = Some (Shows y a b) ->
  exists t l, nth_error h y = Some (Has t l) /\ t <> AList.

Lemma nth_conv : forall h x, nth_error (map conv h) x = option_map conv (nth_error h x).
Proof. intros. apply nth_error_map. Qed.
Lemma read_own : forall h l, read h (SOwn l) = Ok l.
Proof. reflexivity. Qed.
Lemma cut_part : forall l a b, cut l (Z.of_nat a) (Z.of_nat b) = part l a b.
Proof.
  intros l a b. unfold cut, part. rewrite Nat2Z.id. replace (Z.to_nat (Z.of_nat b - Z.of_nat a)) with (b - a)%nat by lia.
  symmetry. rewrite skipn_firstn_comm; reflexivity.
Qed.
Lemma read_view : forall h y a b t l, nth_error h y = Some (Has t l) -> t <> AList ->
  read (map conv h) (SView y (Z.of_nat a) (Z.of_nat b)) = Ok (part l a b).
Proof.
  intros h y a b t l N T. assert (L : (0 < length h)%nat).
  { destruct h; [destruct y; discriminate|cbn; lia]. }
  unfold read. rewrite map_length. destruct (length h) as [|n]; [lia|]. cbn [contents].
  rewrite nth_conv, N. destruct t; [congruence| |]; cbn [option_map conv bind contents]; rewrite cut_part; reflexivity.
Qed.
Lemma observe_conv : forall h x, proper h -> observe (map conv h) x = p_observe h x.
Proof.
  intros h x P. unfold observe, p_observe. rewrite nth_conv.
  destruct (nth_error h x) as [[t l|y a b]|] eqn:E; [|  |reflexivity]; cbn [option_map].
  - destruct t; reflexivity.
  - cbn [conv]. destruct (P _ _ _ _ E) as (t & l & N & T). rewrite (read_view _ _ _ _ _ _ N T), N. reflexivity.
Qed.
Lemma set_conv : forall h x c, (x < length h)%nat -> set_at (map conv h) x (conv c) = map conv (p_set h x c).
Proof.
  unfold p_set. induction h as [|d h IH]; intros x c L; [cbn in L; lia|]. destruct x as [|x]; cbn [map set_at firstn skipn app].
  - reflexivity.
  - f_equal. rewrite IH by (cbn in L; lia). reflexivity.
Qed.
Lemma nth_bound : forall {A} (h : list A) x c, nth_error h x = Some c -> (x < length h)%nat.
Proof. intros A h x c E. apply nth_error_Some. congruence. Qed.

Lemma bytes_neg : forall l,
  forallb (fun v => (0 <=? v) && (v <? 256)) l = negb (existsb (fun v => (v <? 0) || (255 <? v)) l).
Proof.
  induction l as [|v l IH]; [reflexivity|]. cbn [forallb existsb]. rewrite IH, negb_orb. f_equal.
  destruct (Z.leb_spec 0 v), (Z.ltb_spec v 256), (Z.ltb_spec v 0), (Z.ltb_spec 255 v); cbn; try reflexivity; lia.
Qed.
Lemma step_conv : forall h o, proper h -> safe h o ->
  step (map conv h) o = do h' <- p_step h o; Ok (map conv h').
Proof.
  intros h o P S. destruct o as [l|x v|l|x|x|x a b|x|x k v]; cbn [step p_step safe] in *; try rewrite nth_conv.
  - cbn [bind]. rewrite map_app. reflexivity.
  - destruct (nth_error h x) as [[[] l|y a b]|] eqn:E; cbn [option_map conv bind]; try reflexivity.
    f_equal. apply (set_conv h x (Has AList (l ++ [v]))), (nth_bound _ _ _ E).
  - cbn [bind]. rewrite map_app. reflexivity.
  - unfold p_copied, p_observe. destruct (nth_error h x) as [[[] l|y a b]|] eqn:E; try destruct S; cbn [option_map conv bind to_byte_seq];
      try rewrite map_app; reflexivity.
  - unfold p_copied, p_observe. destruct (nth_error h x) as [[[] l|y a b]|] eqn:E; cbn [option_map conv bind]; try (rewrite map_app; reflexivity); [| |reflexivity].
    { rewrite bytes_neg. destruct (existsb _ l); cbn [negb bind]; [reflexivity|]. rewrite map_app. reflexivity. }
    destruct (P _ _ _ _ E) as (t & l & N & T). rewrite (read_view _ _ _ _ _ _ N T), N. cbn [bind]. rewrite map_app. reflexivity.
  - destruct (nth_error h x) as [[[] l|y a' b']|] eqn:E; cbn [option_map conv bind]; try reflexivity; rewrite read_own; cbn [bind];
      (destruct ((0 <=? a) && (a <=? b) && (b <=? Z.of_nat (length l))) eqn:B; [|reflexivity]); cbn [bind];
      rewrite map_app; cbn [map conv]; apply andb_true_iff in B as [B _]; apply andb_true_iff in B as [B1 B2];
      apply Z.leb_le in B1, B2; rewrite !Z2Nat.id by lia; reflexivity.
  - destruct S.
  - destruct (nth_error h x) as [[[] l|y a b]|] eqn:E; cbn [option_map conv bind]; try reflexivity.
    destruct ((0 <=? v) && (v <? 256)); [|reflexivity]. rewrite read_own. cbn [bind].
    destruct (py_setitem l k v) as [l'|e]; cbn [bind]; [|reflexivity].
    f_equal. apply (set_conv h x (Has AnArr l')), (nth_bound _ _ _ E).
Qed.
Lemma set_nth : forall {A} (h : list A) x c y, (x < length h)%nat ->
  nth_error (firstn x h ++ c :: skipn (S x) h) y = if Nat.eqb y x then Some c else nth_error h y.
Proof.
  intros A. induction h as [|d h IH]; intros x c y L; [cbn in L; lia|]. destruct x as [|x].
  - destruct y as [|y]; reflexivity.
  - destruct y as [|y]; [reflexivity|]. cbn [firstn app nth_error Nat.eqb]. change (skipn (S (S x)) (d :: h)) with (skipn (S x) h).
    apply IH. cbn in L. lia.
Qed.
Lemma proper_snoc : forall h c, proper h ->
  (forall y a b, c = Shows y a b -> exists t l, nth_error h y = Some (Has t l) /\ t <> AList) -> proper (h ++ [c]).
Proof.
  intros h c P C x y a b E.
  assert (X : exists t l, nth_error h y = Some (Has t l) /\ t <> AList).
  { destruct (Nat.lt_ge_cases x (length h)) as [L|L].
    - rewrite nth_error_app1 in E by exact L. exact (P _ _ _ _ E).
    - rewrite nth_error_app2 in E by exact L. destruct (x - length h)%nat as [|n]; [|destruct n; discriminate].
      cbn in E. injection E as ->. apply (C y a b). reflexivity. }
  destruct X as (t & l & N & T). exists t, l. split; [|exact T]. rewrite nth_error_app1 by (apply (nth_bound _ _ _ N)). exact N.
Qed.
Lemma proper_set : forall h x t l l', proper h -> nth_error h x = Some (Has t l) -> proper (p_set h x (Has t l')).
Proof.
  intros h x t l l' P N u y a b E. unfold p_set in *. pose proof (nth_bound _ _ _ N) as L. rewrite set_nth in E |- * by exact L.
  destruct (Nat.eqb u x); [discriminate|]. destruct (P _ _ _ _ E) as (t2 & l2 & N2 & T2).
  destruct (Nat.eqb_spec y x) as [->|D].
  - exists t, l'. split; [reflexivity|]. congruence.
  - exists t2, l2. split; assumption.
Qed.
Lemma proper_step : forall h o h', proper h -> p_step h o = Ok h' -> proper h'.
Proof.
  intros h o h' P E. destruct o as [l|x v|l|x|x|x a b|x|x k v]; cbn [p_step] in E.
  - injection E as <-. apply proper_snoc; [exact P|discriminate].
  - destruct (nth_error h x) as [[[] l|]|] eqn:N; try discriminate. injection E as <-. eapply proper_set; eassumption.
  - injection E as <-. apply proper_snoc; [exact P|discriminate].
  - destruct (p_copied h x); [|discriminate]. injection E as <-. apply proper_snoc; [exact P|discriminate].
  - destruct (p_copied h x); [|discriminate]. injection E as <-. apply proper_snoc; [exact P|discriminate].
  - destruct (nth_error h x) as [[t l|]|] eqn:N; try discriminate.
    assert (T : t <> AList) by (intros ->; discriminate).
    assert (E' : (if (0 <=? a) && (a <=? b) && (b <=? Z.of_nat (length l)) then Ok (h ++ [Shows x (Z.to_nat a) (Z.to_nat b)]) else Err ValueError) = Ok h')
      by (destruct t; [congruence|exact E|exact E]).
    destruct ((0 <=? a) && (a <=? b) && (b <=? Z.of_nat (length l))); [|discriminate]. injection E' as <-.
    apply proper_snoc; [exact P|]. intros y a' b' X. injection X as <- <- <-. exists t, l. split; assumption.
  - destruct (nth_error h x) as [[|]|]; try discriminate. destruct (p_observe h x); [|discriminate].
    injection E as <-. apply proper_snoc; [exact P|discriminate].
  - destruct (nth_error h x) as [[[] l|]|] eqn:N; try discriminate. destruct ((0 <=? v) && (v <? 256)); [|discriminate].
    destruct (py_setitem l k v); [|discriminate]. injection E as <-. eapply proper_set; eassumption.
Qed.
Lemma run_conv : forall ops h, proper h -> safe_run h ops ->
  run (map conv h) ops = do h' <- p_run h ops; Ok (map conv h').
Proof.
  induction ops as [|o ops IH]; intros h P S; [reflexivity|]. cbn [run p_run safe_run] in *. destruct S as [S1 S2].
  rewrite (step_conv h o P S1). destruct (p_step h o) as [h'|e] eqn:E; cbn [bind]; [|reflexivity].
  apply IH; [exact (proper_step _ _ _ P E)|exact S2].
Qed.
Lemma proper_run : forall ops h h', proper h -> p_run h ops = Ok h' -> proper h'.
Proof.
  induction ops as [|o ops IH]; intros h h' P E; cbn [p_run] in E; [injection E as <-; exact P|].
  destruct (p_step h o) as [h1|] eqn:E1; [|discriminate]. exact (IH _ _ (proper_step _ _ _ P E1) E).
Qed.
Lemma proper_nil : proper [].
Proof. intros [|x] y a b E; discriminate. Qed.

(** After any such program every object has the contents it has in Python, and if Python
    raises, so does the program. *)
Theorem C172_contents_partial : forall ops, safe_run [] ops ->
  match p_run [] ops with
  | Err e => run [] ops = Err e
  | Ok p => exists h, run [] ops = Ok h /\ forall x, observe h x = p_observe p x
  end.
Proof.
  intros ops S. pose proof (run_conv ops [] proper_nil S) as R. change (map conv []) with (@nil cell) in R.
  destruct (p_run [] ops) as [p|e] eqn:E; [|exact R]. exists (map conv p). split; [exact R|].
  intro x. apply observe_conv. exact (proper_run _ _ _ proper_nil E).
Qed.
Print Assumptions C172_contents_partial.
(** a bytearray of bytes, a copy of it, a view of it, then a write: the copy stays, the view
    changes *)
Definition sample : list op := [NewBytes [1; 2; 3]; ArrOf 0; ArrOf 1; BytesOf 1; ViewOf 1 1 3; ArrSet 1 1 9; BytesOf 4].
Example C172_example : safe_run [] sample /\ exists h, run [] sample = Ok h /\
  map (observe h) [0; 1; 2; 3; 4; 5]%nat =
  [Ok [1; 2; 3]; Ok [1; 9; 3]; Ok [1; 2; 3]; Ok [1; 2; 3]; Ok [9; 3]; Ok [9; 3]].
Proof.
  split; [cbn; tauto|]. eexists. split; [reflexivity|]. reflexivity.
Qed.

(** Refuted: a bytearray made of a list changes with the list, *)
Definition differs (ops : list op) (x : nat) (here there : list Z) : Prop :=
  exists h p, run [] ops = Ok h /\ p_run [] ops = Ok p /\
  observe h x = Ok here /\ p_observe p x = Ok there /\ here <> there.
Theorem C172_list_refuted : differs [NewList [1; 2]; ArrOf 0; ListAppend 0 3] 1 [1; 2; 3] [1; 2].
Proof.
  eexists. eexists. split; [reflexivity|]. split; [reflexivity|]. split; [reflexivity|]. split; [reflexivity|discriminate].
Qed.
Print Assumptions C172_list_refuted.
(** bytes made by tobytes change with the bytearray, *)
Theorem C172_tobytes_refuted :
  differs [NewBytes [1; 2]; ArrOf 0; ViewOf 1 0 2; ToBytes 2; ArrSet 1 0 9] 3 [9; 2] [1; 2].
Proof.
  eexists. eexists. split; [reflexivity|]. split; [reflexivity|]. split; [reflexivity|]. split; [reflexivity|discriminate].
Qed.
Print Assumptions C172_tobytes_refuted.
(** and so does a bytearray made of a memoryview. *)
Theorem C172_view_refuted :
  differs [NewBytes [1; 2]; ArrOf 0; ViewOf 1 0 2; ArrOf 2; ArrSet 1 0 9] 3 [9; 2] [1; 2].
Proof.
  eexists. eexists. split; [reflexivity|]. split; [reflexivity|]. split; [reflexivity|]. split; [reflexivity|discriminate].
Qed.
Print Assumptions C172_view_refuted.
