(** Model of the comparison operators of the lazy sequences
    (crosshair/simplestructs.py 457-513, 594-602), of slices of concrete lists with
    symbolic bounds (crosshair/opcode_intercept.py 265-297), of extending by an
    arbitrary iterable (682-689, 786-789), of in-place repetition (779-780) and of
    writing through a memoryview (libimpl/builtinslib.py 4538-4551). *)
From Coq Require Import ZArith List Bool.
From Verif Require Import Py Range_Spec PySeq_Spec Seq_Model.
Import ListNotations.
Open Scope Z_scope.

Section Cmp.
  Context {A : Type}.
  (** [==] and [<] of the items.  [is] is not modelled: for the items considered,
      identical items are equal. *)
  Variable eqb ltb : A -> A -> bool.

  (** SeqBase.__eq__ 462-474, for an iterable other side. *)
  Fixpoint zip_eq (l1 l2 : list A) : bool :=
    match l1, l2 with
    | x :: l1, y :: l2 => if negb (eqb x y) then false else zip_eq l1 l2
    | _, _ => true
    end.
  Definition seqbase_eq (l1 l2 : list A) : bool :=
    if negb (Nat.eqb (length l1) (length l2)) then false else zip_eq l1 l2.

  (** list.__eq__ / tuple.__eq__: False between a list and a tuple. *)
  Definition raw_eq (t1 : bool) (l1 : list A) (t2 : bool) (l2 : list A) : bool :=
    Bool.eqb t1 t2 && seqbase_eq l1 l2.

  (** [s == raw]; the operand order does not matter for a builtin on the other side:
      its __eq__ answers NotImplemented and Python tries the reflected operand. *)
  Fixpoint eq_raw (s : pseq A) (t : bool) (l : list A) : res bool :=
    match s with
    | PRaw t1 l1 => Ok (raw_eq t1 l1 t l)
    | PCat first second =>                          (* 594-602 *)
        if negb (m_len first + m_len second =? Z.of_nat (length l)) then Ok false
        else
          do o1 <- py_slice l (sl_to (m_len first));
          do o2 <- py_slice l (sl_from (m_len first));
          do b <- eq_raw first t o1;
          if b then eq_raw second t o2 else Ok false
    | PView _ _ _ => do l1 <- m_iter s; Ok (seqbase_eq l1 l)
    end.
  Fixpoint m_eq (s o : pseq A) : res bool :=
    match s with
    | PRaw t l => eq_raw o t l
    | PCat first second =>
        if negb (m_len first + m_len second =? m_len o) then Ok false
        else
          do o1 <- m_getslice o (sl_to (m_len first));
          do b <- m_eq first o1;
          if b then do o2 <- m_getslice o (sl_from (m_len first)); m_eq second o2
          else Ok false
    | PView _ _ _ => do l1 <- m_iter s; do l2 <- m_iter o; Ok (seqbase_eq l1 l2)
    end.

  (** SeqBase._lexicographic_compare 481-489. *)
  Fixpoint lex (l1 l2 : list A) (on_first_diff : A -> A -> bool) (on_prefix : bool) : bool :=
    match l1, l2 with
    | x :: l1, y :: l2 => if eqb x y then lex l1 l2 on_first_diff on_prefix else on_first_diff x y
    | _, _ => on_prefix
    end.
  Definition m_cmp (on_first_diff : A -> A -> bool) (on_prefix : Z -> Z -> bool) (s o : pseq A) : res bool :=
    do l1 <- m_iter s; do l2 <- m_iter o;
    Ok (lex l1 l2 on_first_diff (on_prefix (m_len s) (m_len o))).
  (** 491-513 *)
  Definition gtb x y := ltb y x.
  Definition m_lt := m_cmp ltb Z.ltb.
  Definition m_le := m_cmp ltb Z.leb.
  Definition m_gt := m_cmp gtb Z.gtb.
  Definition m_ge := m_cmp gtb Z.geb.
End Cmp.

Section Alias.
  Context {A : Type}.
  (** The concrete lists of the program under test, by reference. *)
  Definition lists := list (list A).
  (** What [l[a:b]] produces for the list at [ref] when a bound is symbolic: a
      SliceView holding the list object itself. *)
  Inductive aview := AView (ref : nat) (start stop : Z) | AEmpty.

  (** opcode_intercept.py 265-274 and 294-297 build SliceView(container, 0, len);
      slicing it is simplestructs.py 643-650 for step 1. *)
  Definition alias_slice (st : lists) (ref : nat) (start stop : option Z) : res aview :=
    match nth_error st ref with
    | None => Err TypeError
    | Some l =>
        let mylen := Z.of_nat (length l) in
        do t <- m_indices (mkSl start stop None) mylen;
        let '(start, stop, step) := t in
        let clamped := clamp_slice start stop step mylen in
        let a := match sl_start clamped with Some x => x | None => 0 end in
        let b := match sl_stop clamped with Some x => x | None => 0 end in
        Ok (if b <=? a then AEmpty else AView ref a b)
    end.
  (** Iterating it: simplestructs.py 659-661. *)
  Definition alias_read (st : lists) (v : aview) : res (list A) :=
    match v with
    | AEmpty => Ok []
    | AView ref a b =>
        match nth_error st ref with
        | None => Err TypeError
        | Some l => sequence_res (map (py_getitem l) (py_range a b 1))
        end
    end.
End Alias.

Section Extend.
  Context {A : Type}.
  (** What can stand on the right of [extend] or of a slice assignment: a sequence,
      or a one-shot iterator (generator, map, zip, file ...), which is hashable. *)
  Inductive rhs := RSeq (s : pseq A) | RIter (l : list A).
  (** A sequence one of whose parts may be an iterator object. *)
  Inductive extended := ESeq (s : pseq A) | ECatIter (s : pseq A) (l : list A).
  (** simplestructs.py 682-689 sequence_evaluation returns hashable objects as they
      are; 786-789 extend; 666-679 concatenate_sequences. *)
  Definition m_extend_any (inner : pseq A) (r : rhs) : extended :=
    match r with
    | RSeq v => ESeq (m_extend inner v)
    | RIter l => ECatIter inner l
    end.
  (** len() after it: 609-612 calls len on both parts; an iterator has none. *)
  Definition extended_len (e : extended) : res Z :=
    match e with ESeq s => Ok (m_len s) | ECatIter _ _ => Err TypeError end.
End Extend.

Section IMul.
  Context {A : Type}.
  (** Objects by reference; [x *= n] rebinds x to what __imul__ returns (779-780: a
      newly spawned object). The result is the new store and the object now bound to x. *)
  Definition m_imul (st : list (pseq A)) (x : nat) (n : Z) : res (list (pseq A) * nat) :=
    match nth_error st x with
    | None => Err TypeError
    | Some s => do r <- m_mul s n; Ok (st ++ [r], length st)
    end.
End IMul.

Section MemoryView.
  Context {A : Type}.
  (** SymbolicMemoryView.__setitem__, 4538-4551, for a view of [obj] (a bytearray,
      whose own operations are a list's here; items are assumed valid bytes) over the
      positions [vstart, vstop).  An absent slice bound reaches [None >= 0] in
      compose_slices: a TypeError. *)
  Definition mv_setitem (obj : list A) (vstart vstop : Z) (key : Z) (x : A) : res (list A) :=
    let suffixlen := Z.of_nat (length obj) - vstop in
    if key <? 0 then py_setitem obj (key - suffixlen) x
    else py_setitem obj (key + vstart) x.
  Definition mv_setslice (obj : list A) (vstart vstop : Z) (start stop : option Z) (v : list A) : res (list A) :=
    let suffixlen := Z.of_nat (length obj) - vstop in
    match start, stop with
    | Some start, Some stop =>
        let '(a, b) := compose_slices vstart suffixlen start stop in
        let key := mkSl (Some a) (Some b) None in
        do old <- py_slice obj key;
        if negb (Nat.eqb (length v) (length old)) then Err ValueError
        else py_setslice obj key v
    | _, _ => Err TypeError
    end.
End MemoryView.
