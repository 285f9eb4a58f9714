(** Model of the lazy sequences of crosshair/simplestructs.py: SequenceConcatenation,
    SliceView and ShellMutableSequence, for integer indices and slices of ints.

    A Python sequence built by this module is a finite tree: plain lists and tuples
    ([PRaw], whose own operations are CPython's, i.e. those of PySeq_Spec), lazy
    concatenations and views.  All of these are immutable values here: in the code a
    ShellMutableSequence replaces its [inner] instead of modifying it. *)
From Coq Require Import ZArith List Bool.
From Verif Require Import Py Range_Spec PySeq_Spec.
Import ListNotations.
Open Scope Z_scope.

(** simplestructs.py 342-347 normalize_idx. *)
Definition normalize_idx (idx container_len : Z) : Z :=
  if idx <? 0 then idx + container_len else idx.

(** simplestructs.py 350-356 check_idx. *)
Definition check_idx (idx container_len : Z) : res Z :=
  let n := normalize_idx idx container_len in
  if (0 <=? n) && (n <? container_len) then Ok n else Err IndexError.

(** simplestructs.py 359-380 clamp_slice; the slice argument has all fields set. *)
Definition clamp_slice (start stop step container_len : Z) : slice :=
  if step <? 0 then
    if (start <? 0) || (container_len - 1 <=? stop) then mkSl (Some 0) (Some 0) (Some step)
    else
      let clamper i :=
        if i <? 0 then None
        else if container_len <=? i then Some (container_len - 1) else Some i in
      mkSl (clamper start) (clamper stop) (Some step)
  else
    let clamper i :=
      if i <? 0 then Some 0
      else if container_len <? i then Some container_len else Some i in
    mkSl (clamper start) (clamper stop) (Some step).

(** simplestructs.py 387-398 compose_slices; (start, stop). *)
Definition compose_slices (prelen postlen start stop : Z) : Z * Z :=
  ((if 0 <=? start then start + prelen else start - prelen),
   (if 0 <=? stop then stop + prelen else stop - postlen)).

(** simplestructs.py 401-428 cut_slice; ((lstart, lstop), (rstart, rstop)), the step
    being that of the argument. *)
Definition cut_slice (start stop step cut : Z) : (Z * Z) * (Z * Z) :=
  let backwards := step <? 0 in
  let '(start, stop, step, cut) :=
    if backwards then (- start, - stop, - step, - cut) else (start, stop, step, cut) in
  let delta := - Z.min (Z.min start stop) cut in
  let '(start, stop, cut) := (start + delta, stop + delta, cut + delta) in
  let '(lstart, lstop, rstart, rstop) :=
    if cut <? start then (cut, cut, start, stop)
    else if stop <? cut then (start, stop, cut, cut)
    else
      let mid := Z.min cut stop in
      let empties_at_tail := mid mod step in
      let mid' := if 0 <? empties_at_tail then mid + (step - empties_at_tail) else mid in
      (start, mid, mid', stop) in
  let '(lstart, lstop) := (lstart - delta, lstop - delta) in
  let '(rstart, rstop) := (rstart - delta, rstop - delta) in
  if backwards then ((- lstart, - lstop), (- rstart, - rstop))
  else ((lstart, lstop), (rstart, rstop)).

(** simplestructs.py 431-454 indices. *)
Definition m_indices (s : slice) (container_len : Z) : res (Z * Z * Z) :=
  let step := match sl_step s with None => 1 | Some x => x end in
  if step <=? 0 then py_indices s container_len
  else Ok (match sl_start s with None => 0 | Some x => normalize_idx x container_len end,
           match sl_stop s with None => container_len | Some x => normalize_idx x container_len end,
           step).

Section Seq.
  Context {A : Type}.

  (** [PRaw tup l]: a builtin tuple ([tup = true]) or list. *)
  Inductive pseq :=
  | PRaw (tup : bool) (l : list A)
  | PCat (first second : pseq)             (* SequenceConcatenation, 541-545 *)
  | PView (seq : pseq) (start stop : Z).   (* SliceView, 616-620 *)

  (** __len__: 609-612, 656-657. The cache [_len] is never stale, as nothing is
      mutated. *)
  Fixpoint m_len (s : pseq) : Z :=
    match s with
    | PRaw _ l => Z.of_nat (length l)
    | PCat a b => m_len a + m_len b
    | PView _ start stop => stop - start
    end.

  (** __getitem__ with an int: 550-557, 653-655. *)
  Fixpoint m_getitem (s : pseq) (i : Z) : res A :=
    match s with
    | PRaw _ l => py_getitem l i
    | PCat first second =>
        do i <- check_idx i (m_len first + m_len second);
        if i <? m_len first then m_getitem first i
        else m_getitem second (i - m_len first)
    | PView seq start stop =>
        do k <- check_idx i (stop - start); m_getitem seq (start + k)
    end.

  Fixpoint sequence_res {B} (l : list (res B)) : res (list B) :=
    match l with
    | [] => Ok []
    | x :: r => do a <- x; do b <- sequence_res r; Ok (a :: b)
    end.

  (** __iter__: 606-607, 659-661 ([for i in range(start, stop): yield seq[i]]). *)
  Fixpoint m_iter (s : pseq) : res (list A) :=
    match s with
    | PRaw _ l => Ok l
    | PCat a b => do x <- m_iter a; do y <- m_iter b; Ok (x ++ y)
    | PView seq start stop => sequence_res (map (m_getitem seq) (py_range start stop 1))
    end.

  (** concatenate_sequences: 666-679. *)
  Definition m_concat (a b : pseq) : pseq :=
    match a with
    | PRaw false la =>
        match b with
        | PRaw false lb => PRaw false (la ++ lb)
        | PCat (PRaw false lb) b2 => PCat (PRaw false (la ++ lb)) b2
        | _ => PCat a b
        end
    | PCat a1 (PRaw false la) =>
        match b with
        | PRaw false lb => PCat a1 (PRaw false (la ++ lb))
        | _ => PCat a b
        end
    | _ => PCat a b
    end.

  (** __getitem__ with a slice: 558-592, 643-652. *)
  Fixpoint m_getslice (s : pseq) (i : slice) : res pseq :=
    match s with
    | PRaw t l => map_res (PRaw t) (py_slice l i)
    | PCat first second =>
        let firstlen := m_len first in
        let secondlen := m_len second in
        let totallen := firstlen + secondlen in
        let general :=
          do t <- py_indices i totallen;
          let '(start, stop, step) := t in
          let cutpoint := if 0 <? step then firstlen else firstlen - 1 in
          let '((ls, le), (rs, re)) := cut_slice start stop step cutpoint in
          if 0 <? step then
            let slice1 := clamp_slice ls le step firstlen in
            let slice2 := clamp_slice (rs - firstlen) (re - firstlen) step secondlen in
            do x <- m_getslice first slice1; do y <- m_getslice second slice2;
            Ok (m_concat x y)
          else
            let slice1 := clamp_slice (ls - firstlen) (le - firstlen) step secondlen in
            let slice2 := clamp_slice rs re step firstlen in
            do x <- m_getslice second slice1; do y <- m_getslice first slice2;
            Ok (m_concat x y) in
        let after :=
          match sl_start i with
          | Some st =>
              if firstlen <=? st then
                m_getslice second
                  (mkSl (Some (st - firstlen))
                        (match sl_stop i with
                         | None => None
                         | Some sp => if sp <? 0 then Some sp else Some (sp - firstlen)
                         end) (sl_step i))
              else general
          | None => general
          end in
        if match sl_step i with None => true | Some st => 0 <? st end then
          match sl_stop i with
          | Some sp =>
              if (0 <=? sp) && (sp <=? firstlen) then
                match sl_start i with
                | None => m_getslice first i
                | Some st =>
                    if 0 <=? st then m_getslice first i
                    else if st <? - secondlen
                    then m_getslice first (mkSl (Some (st + secondlen)) (Some sp) (sl_step i))
                    else after
                end
              else after
          | None => after
          end
        else general
    | PView seq mystart mystop =>
        let mylen := mystop - mystart in
        do t <- m_indices i mylen;
        let '(start, stop, step) := t in
        if step =? 1 then
          let clamped := clamp_slice start stop step mylen in
          (* with step 1, clamp_slice never yields None *)
          let slice_start := mystart + match sl_start clamped with Some x => x | None => 0 end in
          let slice_stop := mystart + match sl_stop clamped with Some x => x | None => 0 end in
          if slice_stop <=? slice_start then Ok (PView (PRaw true []) 0 0)
          else Ok (PView seq slice_start slice_stop)
        else
          do l <- m_iter s; map_res (PRaw false) (py_slice l i)
    end.

  (** SliceView.slice: 625-638. *)
  Definition view_slice (seq : pseq) (start stop : Z) : pseq :=
    let seqlen := m_len seq in
    let left_at_end := start <=? 0 in
    let right_at_end := seqlen <=? stop in
    if left_at_end && right_at_end then seq
    else
      let start := if left_at_end then 0 else start in
      let stop := if right_at_end then seqlen else stop in
      let stop := if stop <=? start then start else stop in
      PView seq start stop.

  (** *** ShellMutableSequence (692-822); its state is [inner]. *)

  Definition sl_to (n : Z) : slice := mkSl None (Some n) None.
  Definition sl_from (n : Z) : slice := mkSl (Some n) None None.

  (** Second half of __setitem__: 740-751. *)
  Definition splice (inner : pseq) (start stop : Z) (newinner : pseq) : res pseq :=
    let old_len := m_len inner in
    let stop := if stop <? start then start else stop in
    do t <- (if 0 <? start then
               do l <- m_getslice inner (sl_to start);
               Ok (m_concat l newinner, stop)
             else Ok (newinner, if stop <=? 0 then 0 else stop));
    let '(newinner, stop) := t in
    if stop <? old_len then
      do r <- m_getslice inner (sl_from stop); Ok (m_concat newinner r)
    else Ok newinner.

  (** __setitem__ with a slice: 715-731. [v] is the evaluated right hand side; the
      extended case is delegated to a builtin list. *)
  Definition m_setslice (inner : pseq) (k : slice) (v : pseq) : res pseq :=
    do t <- m_indices k (m_len inner);
    let '(start, stop, step) := t in
    if negb (step =? 1) then
      do l <- m_iter inner; do vl <- m_iter v;
      map_res (PRaw false) (py_setslice l k vl)
    else splice inner start stop v.

  (** __setitem__ with an int: 732-735. *)
  Definition m_setitem (inner : pseq) (k : Z) (v : A) : res pseq :=
    do k <- check_idx k (m_len inner);
    splice inner k (k + 1) (PRaw false [v]).

  (** __delitem__: 753-763. *)
  Definition m_delslice (inner : pseq) (k : slice) : res pseq :=
    if match sl_step k with None => true | Some s => s =? 1 end
    then m_setslice inner k (PRaw false [])
    else do l <- m_iter inner; map_res (PRaw false) (py_delslice l k).
  Definition m_delitem (inner : pseq) (k : Z) : res pseq :=
    do idx <- check_idx k (m_len inner);
    m_setslice inner (mkSl (Some idx) (Some (idx + 1)) (Some 1)) (PRaw false []).

  (** append 782-784, extend 786-789 (also __iadd__), insert 803-804, reverse
      821-822 ([reversed] walks the indices downwards). *)
  Definition m_append (inner : pseq) (x : A) : pseq := m_concat inner (PRaw false [x]).
  Definition m_extend (inner v : pseq) : pseq := m_concat inner v.
  Definition m_insert (inner : pseq) (i : Z) (x : A) : res pseq :=
    m_setslice inner (mkSl (Some i) (Some i) (Some 1)) (PRaw false [x]).
  Definition m_reverse (inner : pseq) : res pseq :=
    do l <- m_iter inner; Ok (PRaw false (rev l)).

  (** collections.abc.MutableSequence.pop: v = self[i]; del self[i]; return v. *)
  Definition m_pop (inner : pseq) (i : Z) : res (A * pseq) :=
    do x <- m_getitem inner i; do r <- m_delitem inner i; Ok (x, r).

  (** SeqBase.__mul__: 525-534, with the lazy __add__ (512-515). *)
  Fixpoint mul_loop (s : pseq) (n : nat) (ret : pseq) : pseq :=
    match n with O => ret | S n => mul_loop s n (m_concat s ret) end.
  Definition m_mul (s : pseq) (n : Z) : res pseq :=
    if n <=? 0 then m_getslice s (mkSl (Some 0) (Some 0) None)
    else Ok (mul_loop s (Z.to_nat (n - 1)) s).

  (** Sequence.index mixin of collections.abc, without bounds. *)
  Fixpoint index_loop (eqb : A -> A -> bool) (fuel : nat) (s : pseq) (x : A) (i : Z) : res Z :=
    match fuel with
    | O => Err OutOfFuel
    | S f => match m_getitem s i with
             | Err _ => Err ValueError
             | Ok v => if eqb v x then Ok i else index_loop eqb f s x (i + 1)
             end
    end.
End Seq.
Arguments pseq : clear implicits.

(** One operation on a ShellMutableSequence, and its observable result. *)
Inductive sop (A : Type) :=
| OGet (i : Z) | OGetSlice (sl : slice) | OLen | OIter
| OSet (i : Z) (x : A) | OSetSlice (sl : slice) (v : pseq A)
| ODel (i : Z) | ODelSlice (sl : slice)
| OInsert (i : Z) (x : A) | OAppend (x : A) | OExtend (v : pseq A)
| OPop (i : Z) | OReverse | OIMul (n : Z).
Arguments OGet {A}. Arguments OGetSlice {A}. Arguments OLen {A}. Arguments OIter {A}.
Arguments OSet {A}. Arguments OSetSlice {A}. Arguments ODel {A}. Arguments ODelSlice {A}.
Arguments OInsert {A}. Arguments OAppend {A}. Arguments OExtend {A}. Arguments OPop {A}.
Arguments OReverse {A}. Arguments OIMul {A}.

Inductive sout (A : Type) :=
| ONone | OItem (x : A) | OItems (l : list A) | OInt (n : Z) | ORaise (e : exc).
Arguments ONone {A}. Arguments OItem {A}. Arguments OItems {A}. Arguments OInt {A}.
Arguments ORaise {A}.

Section Run.
  Context {A : Type}.
  (** A mutation that raises leaves the object as it was. *)
  Definition upd (s : pseq A) (r : res (pseq A)) : sout A * pseq A :=
    match r with Ok s' => (ONone, s') | Err e => (ORaise e, s) end.
  Definition obs {B} (f : B -> sout A) (r : res B) : sout A :=
    match r with Ok x => f x | Err e => ORaise e end.

  Definition m_step (s : pseq A) (o : sop A) : sout A * pseq A :=
    match o with
    | OGet i => (obs OItem (m_getitem s i), s)
    | OGetSlice sl => (obs OItems (do x <- m_getslice s sl; m_iter x), s)
    | OLen => (OInt (m_len s), s)
    | OIter => (obs OItems (m_iter s), s)
    | OSet i x => upd s (m_setitem s i x)
    | OSetSlice sl v => upd s (m_setslice s sl v)
    | ODel i => upd s (m_delitem s i)
    | ODelSlice sl => upd s (m_delslice s sl)
    | OInsert i x => upd s (m_insert s i x)
    | OAppend x => (ONone, m_append s x)
    | OExtend v => (ONone, m_extend s v)
    | OPop i => match m_pop s i with Ok (x, s') => (OItem x, s') | Err e => (ORaise e, s) end
    | OReverse => upd s (m_reverse s)
    | OIMul n => upd s (m_mul s n)
    end.
  Fixpoint m_run (s : pseq A) (l : list (sop A)) : list (sout A) * pseq A :=
    match l with
    | [] => ([], s)
    | o :: l => let '(r, s) := m_step s o in let '(rs, s) := m_run s l in (r :: rs, s)
    end.
End Run.
