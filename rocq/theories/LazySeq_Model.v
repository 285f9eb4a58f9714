(** Model of crosshair/libimpl/builtinslib.py 3048-3254, SymbolicBoundedIntTuple: the
    sequence of code points (or bytes) behind a symbolic string.  The variable at position i
    is named after i (3108), so under an assignment it is [v i]; the length is [n].  The
    state is the two lists of variables, kept as lists of positions. *)
From Coq Require Import ZArith List Bool.
From Verif Require Import Py Range_Spec PySeq_Spec.
Import ListNotations.
Open Scope Z_scope.

Record st := mkSt { created : list Z; queue : list Z }.
(** 3049-3056 *)
Definition init : st := mkSt [] [].
Definition len {A} (l : list A) : Z := Z.of_nat (length l).
Definition upto (a b : Z) : list Z := map (fun k => a + Z.of_nat k) (seq 0 (Z.to_nat (b - a))).
(** q[k:] and q[:k] of a Python list *)
Definition from_ (q : list Z) (k : Z) : list Z := skipn (Z.to_nat (if k <? 0 then len q + k else k)) q.
Definition to_ (q : list Z) (k : Z) : list Z := firstn (Z.to_nat (if k <? 0 then len q + k else k)) q.
(** 3101-3124 _queue_up_to *)
Definition queue_up_to (s : st) (size : Z) : st :=
  let starting_idx := len (created s) + len (queue s) in
  mkSt (created s) (queue s ++ upto starting_idx size).
(** 3084-3091 _create_up_to; the local [new_var_queue] is the list _queue_up_to extends *)
Definition create_up_to (s : st) (size : Z) : st :=
  let num_to_add := size - len (created s) in
  let s := if len (queue s) <? num_to_add then queue_up_to s size else s in
  mkSt (created s ++ to_ (queue s) num_to_add) (from_ (queue s) num_to_add).
(** 3093-3099 _get_smt_component_prefix *)
Definition prefix (s : st) (num : Z) : list Z * st :=
  if num <? len (created s) then (to_ (created s) num, s)
  else let s := queue_up_to s num in
       let num_from_queue := num - len (created s) in
       (created s ++ to_ (queue s) num_from_queue, s).

(** 3107-3120: the constraint each new variable gets *)
Definition in_ranges (ranges : list (Z * Z)) (x : Z) : bool := existsb (fun r => (fst r <=? x) && (x <=? snd r)) ranges.

Section Under.
Variable v : Z -> Z.
Variable n : Z.
(** 3219-3229 __getitem__ with an integer *)
Definition getitem (s : st) (i : Z) : res Z * st :=
  let s := if (0 <=? i) && (i <? n) then create_up_to s (i + 1) else create_up_to s n in
  (map_res v (py_getitem (created s) i), s).
(** reading the positions of a view one after the other *)
Fixpoint read (s : st) (l : list Z) : res (list Z) * st :=
  match l with
  | [] => (Ok [], s)
  | i :: l => let '(r, s) := getitem s i in
              match r with
              | Err e => (Err e, s)
              | Ok x => let '(r, s) := read s l in (map_res (cons x) r, s)
              end
  end.
(** 3176-3218 __getitem__ with a slice; the SliceView of line 3208 is read out at once
    (reading it later is a history of integer accesses) *)
Definition getslice (s : st) (sl : slice) : res (list Z) * st :=
  match sl_start sl, sl_stop sl, sl_step sl with
  | None, None, None => read s (upto 0 n)
  | start, stop, step =>
    if match stop with Some stop => (0 <? stop) && match start with None => true | Some a => 0 <=? a end && (stop <=? n) | None => false end
    then let s := create_up_to s (match stop with Some b => b | None => 0 end) in
         (map_res (map v) (py_slice (created s) sl), s)
    else if match stop, step with
            | None, None => match start with None => true | Some a => (0 <=? a) && (a <=? n) end
            | _, _ => false
            end
    then read s (upto (match start with Some a => a | None => 0 end) n)
    else let s := create_up_to s n in
         if n <? len (created s) then (Err RuntimeError, s)   (* CrossHairInternal, 3213-3216 *)
         else (map_res (map v) (py_slice (created s) sl), s)
  end.
(** 3151-3164 __iter__: resuming an iterator that has already given [idx] items *)
Definition next (s : st) (idx : nat) : res Z * st :=
  if Z.of_nat idx <? n
  then let s := create_up_to s (Z.of_nat idx + 1) in (map_res v (py_getitem (created s) (Z.of_nat idx)), s)
  else (Err StopIteration, s).
(** 3132-3146 __eq__, 3065-3082 _smt_for_unification *)
Fixpoint zip_eq (a b : list Z) : bool :=
  match a, b with x :: a, y :: b => (v x =? y) && zip_eq a b | _, _ => true end.
Definition eq_to (s : st) (other : list Z) : bool * st :=
  let '(p, s) := prefix s (len other) in ((n =? len other) && zip_eq p other, s).
(** 3058-3063 __ch_deep_realize__ *)
Definition deep_realize (s : st) : list Z * st :=
  let s := create_up_to s n in (map v (to_ (created s) n), s).
(** 3231-3254 index *)
Fixpoint search (s : st) (l : list Z) (x : Z) : res Z * st :=
  match l with
  | [] => (Err ValueError, s)
  | i :: l => let '(r, s) := getitem s i in
              match r with Err e => (Err e, s) | Ok y => if y =? x then (Ok i, s) else search s l x end
  end.
Definition index (s : st) (x start stop : Z) : res Z * st :=
  let start := if start <? 0 then start + n else start in
  let stop := if stop <? 0 then stop + n else stop in
  search s (upto (Z.max start 0) (Z.min stop n)) x.

Inductive op := Get (i : Z) | Slice (sl : slice) | Next (idx : nat) | EqTo (l : list Z) | Realize | Index (x a b : Z).
Inductive ans := RItem (r : res Z) | RItems (r : res (list Z)) | RBool (b : bool).
Definition step (s : st) (o : op) : ans * st :=
  match o with
  | Get i => let '(r, s) := getitem s i in (RItem r, s)
  | Slice sl => let '(r, s) := getslice s sl in (RItems r, s)
  | Next k => let '(r, s) := next s k in (RItem r, s)
  | EqTo l => let '(r, s) := eq_to s l in (RBool r, s)
  | Realize => let '(r, s) := deep_realize s in (RItems (Ok r), s)
  | Index x a b => let '(r, s) := index s x a b in (RItem r, s)
  end.
Fixpoint run (s : st) (os : list op) : list ans * st :=
  match os with
  | [] => ([], s)
  | o :: os => let '(r, s) := step s o in let '(rs, s) := run s os in (r :: rs, s)
  end.
End Under.
