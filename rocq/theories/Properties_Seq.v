(** C11-C14, C43-C46: lazy sequences behave as Python lists. *)
From Coq Require Import ZArith List Bool Lia.
From Verif Require Import Py Range_Spec PySeq_Spec Seq_Model Seq_Spec Seq_Proofs SeqMut_Proofs
  SeqCmp_Model SeqCmp_Spec SeqCmp_Proofs.
Import ListNotations.
Open Scope Z_scope.

(** [wf] only says that views lie within what they view; the witnesses show nested
    concatenations and views that meet it. *)
Definition ex_seq : pseq Z :=
  PCat (PView (PCat (PRaw false [9; 0; 1]) (PRaw true [2; 3; 8])) 1 5) (PCat (PRaw true [4]) (PRaw false [5; 6; 7])).
Example ex_seq_wf : wf ex_seq /\ contents ex_seq = [0; 1; 2; 3; 4; 5; 6; 7].
Proof. cbn. repeat split; lia. Qed.

(** *** C11 *)
Theorem C11_slice {A} (s : pseq A) : wf s -> forall sl,
  match py_slice (contents s) sl with
  | Ok l => exists s', m_getslice s sl = Ok s' /\ wf s' /\ contents s' = l /\ m_iter s' = Ok l
  | Err e => m_getslice s sl = Err e
  end.
Proof.
  intros W sl. pose proof (getslice_ok s W sl) as H. destruct (py_slice (contents s) sl); auto.
  destruct H as (s' & E & W' & C). exists s'. rewrite m_iter_ok, C by auto. auto.
Qed.
Example C11_slice_witness :
  py_slice (contents ex_seq) (mkSl (Some (-2)) (Some 1) (Some (-2))) = Ok [6; 4; 2]
  /\ (do r <- m_getslice ex_seq (mkSl (Some (-2)) (Some 1) (Some (-2))); m_iter r) = Ok [6; 4; 2].
Proof. now vm_compute. Qed.
Print Assumptions C11_slice.

Theorem C11_index {A} (s : pseq A) : wf s -> forall i, m_getitem s i = py_getitem (contents s) i.
Proof. exact (m_getitem_ok s). Qed.
Example C11_index_witness : m_getitem ex_seq (-3) = Ok 5 /\ m_getitem ex_seq 8 = Err IndexError.
Proof. now vm_compute. Qed.
Print Assumptions C11_index.

Theorem C11_len_iter {A} (s : pseq A) : wf s ->
  m_len s = Z.of_nat (length (contents s)) /\ m_iter s = Ok (contents s).
Proof. intro W. split; [now apply m_len_ok|now apply m_iter_ok]. Qed.
Example C11_len_iter_witness : m_len ex_seq = 8.
Proof. reflexivity. Qed.
Print Assumptions C11_len_iter.

(** The list slice itself, characterised without any index arithmetic of the model:
    the positions of a slice are those of range( *slice.indices(len) ). *)
Theorem C11_spec_positions {A} (l : list A) sl r : py_slice l sl = Ok r ->
  exists a b s, py_indices sl (Z.of_nat (length l)) = Ok (a, b, s) /\ s <> 0
  /\ is_range a b s (py_range a b s) /\ r = pick l (py_range a b s).
Proof.
  unfold py_slice. destruct (py_indices sl _) as [[[a b] s]|e] eqn:E; [|discriminate].
  cbn [bind]. intro H. injection H as <-. exists a, b, s.
  assert (N : s <> 0).
  { unfold py_indices in E. destruct (_ =? 0) eqn:Z in E; [discriminate|]. injection E as _ _ <-.
    now apply Z.eqb_neq. }
  split; [auto|]. split; [auto|]. split; [now apply py_range_is|reflexivity].
Qed.
Example C11_spec_positions_witness : py_slice [5; 6; 7; 8] (mkSl (Some 3) None (Some (-2))) = Ok [8; 6].
Proof. reflexivity. Qed.
Print Assumptions C11_spec_positions.

(** *** C12 *)
Theorem C12_list_history {A} (s : pseq A) (ops : list (sop A)) : wf s -> Forall op_wf ops ->
  fst (m_run s ops) = fst (l_run (contents s) ops)
  /\ contents (snd (m_run s ops)) = snd (l_run (contents s) ops)
  /\ m_iter (snd (m_run s ops)) = Ok (snd (l_run (contents s) ops)).
Proof.
  intros W F. destruct (run_ok ops s W F) as (E & W' & C). rewrite m_iter_ok, C by auto. auto.
Qed.
Example C12_list_history_witness :
  let ops := [OSetSlice (mkSl (Some 2) (Some (-2)) None) ex_seq; ODel (-1); OInsert (-20) 42;
              OSetSlice (mkSl None None (Some 2)) (PRaw true [1; 2]); OPop 3; OReverse;
              OGetSlice (mkSl None (Some (-3)) (Some (-1)))] in
  wf ex_seq /\ Forall op_wf ops /\
  m_run ex_seq ops =
    ([ONone; ONone; ONone; ORaise ValueError; OItem 0; ONone; OItems [42; 0]],
     PRaw false [6; 7; 6; 5; 4; 3; 2; 1; 1; 0; 42]).
Proof.
  split; [apply ex_seq_wf|]. split; [|vm_compute; reflexivity].
  repeat (apply Forall_cons; [first [exact I|apply ex_seq_wf]|]). apply Forall_nil.
Qed.
Print Assumptions C12_list_history.

(** Single operations, for reference. *)
Theorem C12_setslice {A} (s v : pseq A) sl : wf s -> wf v ->
  refines (m_setslice s sl v) (py_setslice (contents s) sl (contents v)).
Proof. exact (setslice_ok s v sl). Qed.
Example C12_setslice_witness :
  (do r <- m_setslice ex_seq (mkSl (Some (-6)) (Some 3) (Some 1)) (PRaw true [70; 71]); m_iter r)
  = Ok [0; 1; 70; 71; 3; 4; 5; 6; 7].
Proof. now vm_compute. Qed.
Print Assumptions C12_setslice.
Theorem C12_delslice {A} (s : pseq A) sl : wf s ->
  refines (m_delslice s sl) (py_delslice (contents s) sl).
Proof. exact (delslice_ok s sl). Qed.
Example C12_delslice_witness :
  (do r <- m_delslice ex_seq (mkSl (Some (-1)) None (Some (-3))); m_iter r) = Ok [0; 2; 3; 5; 6].
Proof. now vm_compute. Qed.
Print Assumptions C12_delslice.

(** *** C13 *)
Theorem C13_view_slice {A} (q : pseq A) (start stop : Z) : wf q ->
  wf (view_slice q start stop) /\
  contents (view_slice q start stop)
  = firstn (Z.to_nat (stop - Z.max 0 start)) (skipn (Z.to_nat start) (contents q)).
Proof. exact (view_slice_ok q start stop). Qed.
Example C13_view_slice_witness :
  contents (view_slice ex_seq 3 6) = [3; 4; 5] /\ contents (view_slice ex_seq (-3) 2) = [0; 1].
Proof. now vm_compute. Qed.
Print Assumptions C13_view_slice.

(** Slicing a view is the slice of the slice. *)
Theorem C13_nested {A} (q : pseq A) (start stop : Z) sl : wf q ->
  refines (m_getslice (view_slice q start stop) sl)
    (py_slice (firstn (Z.to_nat (stop - Z.max 0 start)) (skipn (Z.to_nat start) (contents q))) sl).
Proof.
  intro W. destruct (view_slice_ok q start stop W) as [W' C]. rewrite <- C. now apply getslice_ok.
Qed.
Example C13_nested_witness :
  (do r <- m_getslice (view_slice ex_seq 2 7) (mkSl (Some (-4)) (Some 9) (Some 2)); m_iter r) = Ok [3; 5].
Proof. now vm_compute. Qed.
Print Assumptions C13_nested.

(** *** C14 *)
(** Equality needs the builtin parts to be of one type; missing: parts of mixed types,
    refuted below. [same] is Python's list equality: same length and equal items. *)
Theorem C14_eq_partial {A} (eqb : A -> A -> bool) t (s o : pseq A) :
  (forall x y, eqb x y = eqb y x) -> wf s -> wf o -> leaves_are t s -> leaves_are t o ->
  exists b, m_eq eqb s o = Ok b
    /\ (b = true <-> Forall2 (fun x y => eqb x y = true) (contents s) (contents o)).
Proof. intros SY W Wo L Lo. exact (m_eq_ok eqb t s SY W L o Wo Lo). Qed.
Example C14_eq_witness :
  let s := PCat (PRaw false [1; 2]) (PView (PRaw true [0; 3; 4; 5]) 1 3) in
  wf s /\ leaves_are false s /\ m_eq Z.eqb s (PRaw false [1; 2; 3; 4]) = Ok true
  /\ m_eq Z.eqb (PCat (PRaw false [1]) (PCat (PRaw false [2]) (PRaw false [4]))) s = Ok false.
Proof. cbn. repeat split; lia. Qed.
Print Assumptions C14_eq_partial.

(** A list extended by a tuple does not compare equal to the list of its items. *)
Theorem C14_eq_refuted : exists s o : pseq Z, wf s /\ wf o /\ contents s = contents o
  /\ m_eq Z.eqb s o = Ok false
  /\ s = m_extend (PRaw false [1; 2]) (PRaw true [3; 4]) /\ o = PRaw false [1; 2; 3; 4].
Proof.
  exists (m_extend (PRaw false [1; 2]) (PRaw true [3; 4])), (PRaw false [1; 2; 3; 4]).
  vm_compute. auto 10.
Qed.
Print Assumptions C14_eq_refuted.

(** Ordering, for items with a decidable equality and an irreflexive order. *)
Theorem C14_order {A} (eqb ltb : A -> A -> bool) :
  (forall x y, eqb x y = true <-> x = y) -> (forall x, ltb x x = false) ->
  forall s o : pseq A, wf s -> wf o ->
  let lt x y := ltb x y = true in
  (exists b, m_lt eqb ltb s o = Ok b /\ (b = true <-> lex_lt lt (contents s) (contents o))) /\
  (exists b, m_le eqb ltb s o = Ok b /\ (b = true <-> (lex_lt lt (contents s) (contents o) \/ contents s = contents o))) /\
  (exists b, m_gt eqb ltb s o = Ok b /\ (b = true <-> lex_lt lt (contents o) (contents s))) /\
  (exists b, m_ge eqb ltb s o = Ok b /\ (b = true <-> (lex_lt lt (contents o) (contents s) \/ contents s = contents o))).
Proof. intros EQ IRR s o Ws Wo. exact (compare_ok eqb ltb EQ IRR s o Ws Wo). Qed.
Example C14_order_witness :
  (forall x y, Z.eqb x y = true <-> x = y) /\ (forall x, Z.ltb x x = false)
  /\ m_lt Z.eqb Z.ltb ex_seq (PRaw false [0; 1; 3]) = Ok true
  /\ m_ge Z.eqb Z.ltb ex_seq (PRaw false [0; 1; 2]) = Ok true.
Proof. repeat split; try (vm_compute; reflexivity); try apply Z.eqb_eq. apply Z.ltb_irrefl. Qed.
Print Assumptions C14_order.

(** *** C43: slicing a list gives an independent copy. Missing: independence. *)
Theorem C43_slice_value_partial {A} (st : list (list A)) ref l start stop : nth_error st ref = Some l ->
  exists v, alias_slice st ref start stop = Ok v /\
  forall st', nth_error st' ref = Some l -> alias_read st' v = py_slice l (mkSl start stop None).
Proof. exact (alias_ok st ref l start stop). Qed.
Example C43_slice_value_witness :
  (do v <- alias_slice [[5; 6; 7; 8]] 0 (Some 1) (Some (-1)); alias_read [[5; 6; 7; 8]] v) = Ok [6; 7].
Proof. now vm_compute. Qed.
Print Assumptions C43_slice_value_partial.
(** [y = x[i:]; x[1] = 9] changes y; shrinking x makes reading y raise IndexError. *)
Theorem C43_slice_independent_refuted : exists (l l' l'' : list Z) start v,
  alias_slice [l] 0 start None = Ok v /\ alias_read [l] v = Ok [2; 3]
  /\ py_setitem l 1 9 = Ok l' /\ alias_read [l'] v = Ok [9; 3]
  /\ py_delitem l 0 = Ok l'' /\ alias_read [l''] v = Err IndexError.
Proof. exists [1; 2; 3], [1; 9; 3], [2; 3], (Some 1). eexists. repeat split; vm_compute; reflexivity. Qed.
Print Assumptions C43_slice_independent_refuted.

(** *** C44: extending by any iterable. Missing: one-shot iterators. *)
Theorem C44_extend_partial {A} (s v : pseq A) : wf s -> wf v ->
  extended_len (m_extend_any s (RSeq v)) = Ok (Z.of_nat (length (contents s ++ contents v))).
Proof.
  intros Ws Wv. destruct (m_concat_ok s v Ws Wv) as [W C]. cbn. unfold m_extend. now rewrite m_len_ok, C.
Qed.
Example C44_extend_witness : extended_len (m_extend_any ex_seq (RSeq ex_seq)) = Ok 16.
Proof. reflexivity. Qed.
Print Assumptions C44_extend_partial.
Theorem C44_extend_refuted : exists (s : pseq Z) l, wf s /\
  extended_len (m_extend_any s (RIter l)) <> Ok (Z.of_nat (length (contents s ++ l))).
Proof. exists (PRaw false [1]), [2]. cbn. split; [auto|discriminate]. Qed.
Print Assumptions C44_extend_refuted.

(** *** C45: [x *= n] changes the object x is bound to, so other names see it.
    Proved: the value bound to x afterwards. Missing: the identity of the object. *)
Theorem C45_imul_value_partial {A} (st : list (pseq A)) x s n : nth_error st x = Some s -> wf s ->
  exists st' x' s', m_imul st x n = Ok (st', x') /\ nth_error st' x' = Some s' /\ wf s'
  /\ contents s' = py_repeat (contents s) n.
Proof.
  intros N W. unfold m_imul. rewrite N. destruct (mul_ok s n W) as (r & -> & Wr & C). cbn.
  eexists. eexists. exists r. split; [reflexivity|]. split; auto.
  rewrite nth_error_app2, Nat.sub_diag; auto.
Qed.
Example C45_imul_value_witness : m_imul [PRaw false [1; 2]] 0 2
  = Ok ([PRaw false [1; 2]; PRaw false [1; 2; 1; 2]], 1%nat).
Proof. reflexivity. Qed.
Print Assumptions C45_imul_value_partial.
Theorem C45_imul_in_place_refuted : exists (st st' : list (pseq Z)) x x' s,
  m_imul st x 2 = Ok (st', x') /\ x' <> x /\ nth_error st' x = Some s
  /\ contents s <> py_repeat (contents s) 2 /\ nth_error st x = Some s.
Proof.
  exists [PRaw false [1; 2]]. eexists. exists 0%nat. eexists. eexists. split; [vm_compute; reflexivity|].
  repeat split; discriminate.
Qed.
Print Assumptions C45_imul_in_place_refuted.

(** *** C46: writing through a memoryview of obj[vs:ve] changes that part of obj.
    Missing: indices outside the view, negative slice starts, absent slice bounds. *)
Theorem C46_setitem_partial {A} (obj : list A) (vs ve k : Z) x :
  0 <= vs <= ve -> ve <= Z.of_nat (length obj) -> - (ve - vs) <= k < ve - vs ->
  mv_setitem obj vs ve k x = view_setitem obj vs ve k x.
Proof. exact (mv_setitem_ok obj vs ve k x). Qed.
Example C46_setitem_witness : mv_setitem [1; 2; 3; 4; 5] 1 4 (-1) 9 = Ok [1; 2; 3; 9; 5].
Proof. reflexivity. Qed.
Print Assumptions C46_setitem_partial.
Theorem C46_setslice_partial {A} (obj : list A) (vs ve start stop : Z) v :
  0 <= vs <= ve -> ve <= Z.of_nat (length obj) ->
  0 <= start <= ve - vs -> - (ve - vs) <= stop <= ve - vs ->
  mv_setslice obj vs ve (Some start) (Some stop) v = view_setslice obj vs ve (Some start) (Some stop) v.
Proof. exact (mv_setslice_ok obj vs ve start stop v). Qed.
Example C46_setslice_witness :
  mv_setslice [1; 2; 3; 4; 5] 1 4 (Some 0) (Some (-1)) [8; 9] = Ok [1; 8; 9; 4; 5].
Proof. reflexivity. Qed.
Print Assumptions C46_setslice_partial.
(** An index past the view writes outside it; a negative start takes the wrong slice;
    an absent bound raises TypeError. *)
Theorem C46_write_refuted :
  (exists obj vs ve k (x : Z), 0 <= vs <= ve /\ ve <= Z.of_nat (length obj)
     /\ view_setitem obj vs ve k x = Err IndexError /\ exists obj', mv_setitem obj vs ve k x = Ok obj')
  /\ (exists (obj : list Z) vs ve start stop v o1, 0 <= vs <= ve /\ ve <= Z.of_nat (length obj)
     /\ view_setslice obj vs ve (Some start) (Some stop) v = Ok o1
     /\ mv_setslice obj vs ve (Some start) (Some stop) v = Err ValueError)
  /\ (exists (obj : list Z) vs ve v o1, 0 <= vs <= ve /\ ve <= Z.of_nat (length obj)
     /\ view_setslice obj vs ve None None v = Ok o1 /\ mv_setslice obj vs ve None None v = Err TypeError).
Proof.
  repeat split.
  - exists [1; 2; 3], 0, 2, 2, 9. repeat split; cbn; try lia. eexists. vm_compute. reflexivity.
  - exists [1; 2; 3; 4; 5], 1, 5, (-2), (-1), [9], [1; 2; 3; 9; 5].
    repeat split; cbn; try lia; vm_compute; reflexivity.
  - exists [1; 2], 0, 2, [3; 4]. eexists. repeat split; cbn; try lia; vm_compute; reflexivity.
Qed.
Print Assumptions C46_write_refuted.
