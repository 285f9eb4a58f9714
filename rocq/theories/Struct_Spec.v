(** The struct module (library reference, "Format Strings") with standard sizes and the
    byte order the prefix names; integers, characters, bools and padding.  Nothing here
    refers to the model's operations. *)
From Coq Require Import ZArith List Bool.
From Verif Require Import Py PySeq_Spec Str_Model IntOps_Model IntOps_Spec Struct_Model.
Import ListNotations.
Open Scope Z_scope.

(** '<' little-endian, '>' and '!' big-endian; '=' and '@' are native: little-endian on
    the machines CPython usually runs on *)
Definition py_order (p : prefix) : order := match p with BigP | Network => Big | _ => Little end.

(** A format after the prefix: items separated by C whitespace; an item is an optional
    decimal count and a code; the count repeats the code except for s and p, whose length
    it is. *)
Definition c_space (c : Z) : Prop := 9 <= c <= 13 \/ c = 32.
Definition repeated (n : Z) (k : code) : list item :=
  match k with Counted ch => [(Counted ch, n)] | _ => repeat (k, 1) (Z.to_nat n) end.
Inductive format : str -> list item -> Prop :=
| format_nil : format [] []
| format_space c s l : c_space c -> format s l -> format (c :: s) l
| format_one c k s l : code_of c = Some k -> format s l -> format (c :: s) (repeated 1 k ++ l)
| format_count ds c k s l : ds <> [] -> Forall is_digit ds -> code_of c = Some k -> format s l ->
    format (ds ++ c :: s) (repeated (dec_value ds) k ++ l).

(** [writes o items args bytes]: packing [args] gives [bytes]. *)
Inductive writes (o : order) : list item -> list value -> list Z -> Prop :=
| w_nil : writes o [] [] []
| w_pad is vs b : writes o is vs b -> writes o ((Pad, 1) :: is) vs (0 :: b)
| w_char c is vs b : writes o is vs b -> writes o ((Char, 1) :: is) (VBytes [c] :: vs) (c :: b)
| w_bool (t : bool) is vs b : writes o is vs b -> writes o ((Bool, 1) :: is) (VBool t :: vs) ((if t then 1 else 0) :: b)
| w_truth n is vs b : writes o is vs b -> writes o ((Bool, 1) :: is) (VInt n :: vs) ((if n =? 0 then 0 else 1) :: b)
| w_int size signed l is vs b : Forall is_byte l -> slen l = size ->
    writes o is vs b -> writes o ((Int size signed, 1) :: is) (VInt (py_int_of_bytes o signed l) :: vs) (l ++ b)
| w_int_bool size signed (t : bool) l is vs b : Forall is_byte l -> slen l = size ->
    py_int_of_bytes o signed l = (if t then 1 else 0) ->
    writes o is vs b -> writes o ((Int size signed, 1) :: is) (VBool t :: vs) (l ++ b).
(** [reads o items bytes vals]: unpacking exactly [bytes] gives [vals]. *)
Inductive reads (o : order) : list item -> list Z -> list value -> Prop :=
| r_nil : reads o [] [] []
| r_pad c is b vs : reads o is b vs -> reads o ((Pad, 1) :: is) (c :: b) vs
| r_char c is b vs : reads o is b vs -> reads o ((Char, 1) :: is) (c :: b) (VBytes [c] :: vs)
| r_bool c is b vs : reads o is b vs -> reads o ((Bool, 1) :: is) (c :: b) (VBool (negb (c =? 0)) :: vs)
| r_int size signed l is b vs : slen l = size ->
    reads o is b vs -> reads o ((Int size signed, 1) :: is) (l ++ b) (VInt (py_int_of_bytes o signed l) :: vs).
(** calcsize with standard sizes *)
Definition code_size (k : code) : Z := match k with Int size _ => size | _ => 1 end.
Definition py_size (is : list item) : Z := fold_right (fun i n => code_size (fst i) + n) 0 is.

(** pack: the bytes written, or struct.error. *)
Definition packs (o : order) (is : list item) (vs : list value) (r : res (list Z)) : Prop :=
  (exists b, r = Ok b /\ writes o is vs b) \/ (r = Err StructError /\ forall b, ~ writes o is vs b).
(** unpack: struct.error unless the buffer has exactly the format's size. *)
Definition unpacks (o : order) (is : list item) (buf : list Z) (r : res (list value)) : Prop :=
  if slen buf =? py_size is then exists vs, r = Ok vs /\ reads o is buf vs else r = Err StructError.
(** unpack_from: a negative offset counts from the end; struct.error unless the buffer
    has the format's size from there on. *)
Definition unpacks_from (o : order) (is : list item) (buf : list Z) (off : Z) (r : res (list value)) : Prop :=
  let off' := if off <? 0 then off + slen buf else off in
  if (0 <=? off') && (off' + py_size is <=? slen buf)
  then exists vs, r = Ok vs /\ reads o is (firstn (Z.to_nat (py_size is)) (skipn (Z.to_nat off') buf)) vs
  else r = Err StructError.
(** pack_into: the bytes replace as many of the buffer, which must hold them. *)
Definition packs_into (o : order) (is : list item) (buf : list Z) (off : Z) (vs : list value) (r : res (list Z)) : Prop :=
  let off' := if off <? 0 then off + slen buf else off in
  if (0 <=? off') && (off' + py_size is <=? slen buf)
  then (exists b, r = Ok (firstn (Z.to_nat off') buf ++ b ++ skipn (Z.to_nat (off' + py_size is)) buf) /\ writes o is vs b)
       \/ (r = Err StructError /\ forall b, ~ writes o is vs b)
  else r = Err StructError.
(** iter_unpack: the records that make up the buffer. *)
Inductive records (o : order) (is : list item) : list Z -> list (list value) -> Prop :=
| rec_nil : records o is [] []
| rec_cons b vs rest l : reads o is b vs -> records o is rest l -> records o is (b ++ rest) (vs :: l).
Definition iter_unpacks (o : order) (is : list item) (buf : list Z) (r : res (list (list value))) : Prop :=
  if (py_size is =? 0) || negb (slen buf mod py_size is =? 0) then r = Err StructError
  else exists l, r = Ok l /\ records o is buf l.

(** The items this specification covers: single codes with sizes of the table. *)
Definition simple (i : item) : Prop :=
  snd i = 1 /\ match fst i with Pad | Char | Bool => True | Int size _ => 0 < size | _ => False end.
(** An argument of the documented type for a code: one byte for c, a bool for ?, an
    integer for the rest. *)
Definition typed (i : item) (v : value) : Prop :=
  match fst i, v with
  | Char, VBytes l => Forall is_byte l
  | Bool, VBool _ => True
  | Int _ _, (VInt _ | VBool _) => True
  | _, _ => False
  end.
Fixpoint typed_all (is : list item) (vs : list value) : Prop :=
  match is with
  | [] => True
  | (Pad, _) :: is => typed_all is vs
  | i :: is => match vs with [] => True | v :: vs => typed i v /\ typed_all is vs end
  end.
(** The prefixes that say which byte order *)
Definition explicit (p : prefix) : Prop := match p with LittleP | BigP | Network => True | _ => False end.
(** A whole format: the first character may be a prefix; the default is native. *)
Definition py_format (s : str) (p : prefix) (l : list item) : Prop :=
  match s with
  | [] => p = Native /\ l = []
  | c :: r => match prefix_of c with Some p' => p = p' /\ format r l | None => p = Native /\ format s l end
  end.
(** ASCII, and no whitespace but space, tab, newline, return and vertical tab *)
Definition plain (c : Z) : Prop := 0 <= c < 128 /\ c <> 12 /\ ~ 28 <= c <= 31.
(** The arguments as unpack gives them back: bools packed as integers are integers. *)
Definition value_int (v : value) : value := match v with VBool t => VInt (if t then 1 else 0) | v => v end.
Fixpoint as_read (is : list item) (vs : list value) : list value :=
  match is with
  | [] => []
  | (Pad, _) :: is => as_read is vs
  | (Int _ _, _) :: is => match vs with [] => [] | v :: vs => value_int v :: as_read is vs end
  | _ :: is => match vs with [] => [] | v :: vs => v :: as_read is vs end
  end.
