(** Model of crosshair/libimpl/structlib.py.  Formats are lists of character codes; byte
    strings are lists of integers.  The codes the code hands to the real struct module
    (strings, floats, pointers) are parameters. *)
From Coq Require Import ZArith List Bool.
From Verif Require Import Py PySeq_Spec Str_Model IntOps_Model.
Import ListNotations.
Open Scope Z_scope.

(** 36-60 _STANDARD_SIZES, grouped as the code treats them (129-134): pad, char, bool,
    integers with size and sign, the native-only integers n and N (size from the real
    calcsize), the counted s and p, and the rest with their size (0: real calcsize) *)
Inductive code := Pad | Char | Bool | Int (size : Z) (signed : bool) | SizeT (signed : bool) | Counted (ch : Z) | Rest (ch size : Z).
Definition code_of (ch : Z) : option code :=
  match ch with
  | 120 (* x *) => Some Pad
  | 99 (* c *) => Some Char
  | 63 (* ? *) => Some Bool
  | 98 (* b *) => Some (Int 1 true)   | 66 (* B *) => Some (Int 1 false)
  | 104 (* h *) => Some (Int 2 true)  | 72 (* H *) => Some (Int 2 false)
  | 105 (* i *) => Some (Int 4 true)  | 73 (* I *) => Some (Int 4 false)
  | 108 (* l *) => Some (Int 4 true)  | 76 (* L *) => Some (Int 4 false)
  | 113 (* q *) => Some (Int 8 true)  | 81 (* Q *) => Some (Int 8 false)
  | 110 (* n *) => Some (SizeT true)  | 78 (* N *) => Some (SizeT false)
  | 115 (* s *) => Some (Counted 115) | 112 (* p *) => Some (Counted 112)
  | 101 (* e *) => Some (Rest 101 2)  | 102 (* f *) => Some (Rest 102 4) | 100 (* d *) => Some (Rest 100 8)
  | 80 (* P *) => Some (Rest 80 0)    | 70 (* F *) => Some (Rest 70 8)   | 68 (* D *) => Some (Rest 68 16)
  | _ => None
  end.
Notation item := (code * Z)%type.

(** *** 63-101 _parse_format *)
(** 67: str.strip() on ASCII *)
Definition strips (c : Z) : bool := ((9 <=? c) && (c <=? 13)) || ((28 <=? c) && (c <=? 32)).
Fixpoint dropw (f : Z -> bool) (s : str) : str := match s with c :: r => if f c then dropw f r else s | [] => [] end.
Fixpoint takew (f : Z -> bool) (s : str) : str := match s with c :: r => if f c then c :: takew f r else [] | [] => [] end.
Definition strip_ (s : str) : str := rev (dropw strips (rev (dropw strips s))).
(** 79: " \t\n\r\v" *)
Definition skips (c : Z) : bool := (c =? 32) || (c =? 9) || (c =? 10) || (c =? 13) || (c =? 11).
(** 84: isdigit (ASCII); 87: int(count_str) *)
Definition digit (c : Z) : bool := (48 <=? c) && (c <=? 57).
Definition number (s : str) : Z := fold_left (fun n c => n * 10 + (c - 48)) s 0.
(** 78-100, on what remains of the format; each round consumes a character *)
Fixpoint parse_loop (fuel : nat) (s : str) (items : list item) : res (list item) :=
  match fuel with
  | O => Err OutOfFuel
  | S fuel =>
      match dropw skips s with
      | [] => Ok items
      | s =>
          let count_str := takew digit s in
          let count := match count_str with [] => 1 | _ => number count_str end in
          match dropw digit s with
          | [] => Err StructError
          | fc :: r =>
              match code_of fc with
              | Some (Counted ch) => parse_loop fuel r (items ++ [(Counted ch, count)])
              | Some k => parse_loop fuel r (items ++ repeat (k, 1) (Z.to_nat count))
              | None => Err StructError
              end
          end
      end
  end.
(** 74-76: "@=<>!" *)
Inductive prefix := Native | NativeStd | LittleP | BigP | Network.
Definition prefix_of (c : Z) : option prefix :=
  match c with 64 => Some Native | 61 => Some NativeStd | 60 => Some LittleP | 62 => Some BigP | 33 => Some Network | _ => None end.
(** 63-101 *)
Definition m_parse (fmt : str) : res (prefix * list item) :=
  match strip_ fmt with
  | [] => Err StructError
  | (c :: r) as s =>
      match prefix_of c with
      | Some p => map_res (pair p) (parse_loop (length s) r [])
      | None => map_res (pair Native) (parse_loop (S (length s)) s [])
      end
  end.

(** 137-138 *)
Definition byteorder (p : prefix) : order := match p with LittleP => Little | _ => Big end.

Inductive value := VInt (n : Z) | VBool (b : bool) | VBytes (l : list Z) | VOther (tag : Z).

Section Real.
(** the real struct module on one item: calcsize, pack, unpack *)
Variable real_size : prefix -> code -> Z.
Variable real_pack : prefix -> item -> value -> res (list Z).
Variable real_unpack : prefix -> item -> list Z -> res value.

(** 104-113 _get_item_size *)
Definition item_size (p : prefix) (i : item) : Z :=
  match i with
  | (Pad, count) | (Char, count) | (Bool, count) => 1 * count
  | (Int size _, count) => size * count
  | (SizeT s, _) => real_size p (SizeT s)
  | (Counted _, count) => count
  | (Rest ch size, count) => if size =? 0 then real_size p (Rest ch size) else size * count
  end.
(** 116-121 *)
Definition total_size (p : prefix) (items : list item) : Z := fold_right (fun i n => item_size p i + n) 0 items.
(** 124-126 *)
Definition arg_count (items : list item) : Z := slen (map (fun _ => 0) (filter (fun i => match fst i with Pad => false | _ => true end) items)).
(** 215, 221: val.to_bytes(size, byteorder, signed=signed) *)
Definition val_to_bytes (v : value) (size : Z) (o : order) (signed : bool) : res (list Z) :=
  match v with
  | VInt n => m_to_bytes n size o signed
  | VBool b => m_to_bytes (if b then 1 else 0) size o signed
  | _ => Err AttributeError
  end.
(** 205-226: one packed value *)
Definition pack_one (p : prefix) (i : item) (v : value) : res (list Z) :=
  match fst i with
  | Pad => Ok []
  | Char =>
      match v with
      | VBytes l => if negb (slen l =? 1) then Err StructError else Ok l
      | VInt n => if (n <? 0) || (255 <? n) then Err ValueError else Ok [n]
      | VBool b => Ok [if b then 1 else 0]
      | VOther _ => Err TypeError
      end
  | Bool => val_to_bytes v 1 (byteorder p) false
  | Int _ signed | SizeT signed =>
      match val_to_bytes v (item_size p i) (byteorder p) signed with
      | Err OverflowError => Err StructError
      | r => r
      end
  | _ => real_pack p i v
  end.
(** 199-235: the loop over the items *)
Fixpoint pack_loop (p : prefix) (items : list item) (args : list value) : res (list Z) :=
  match items with
  | [] => Ok []
  | (Pad, count) :: r => do rest <- pack_loop p r args; Ok (repeat 0 (Z.to_nat count) ++ rest)
  | i :: r =>
      match args with
      | [] => Err IndexError
      | v :: args => do b <- pack_one p i v; do rest <- pack_loop p r args; Ok (b ++ rest)
      end
  end.
(** 182-235 _pack, after parsing; the real calcsize has accepted the format *)
Definition m_pack (p : prefix) (items : list item) (args : list value) : res (list Z) :=
  if negb (Z.of_nat (length args) =? arg_count items) then Err StructError
  else pack_loop p items args.

(** 262-282: one unpacked value from its bytes *)
Definition unpack_one (p : prefix) (i : item) (chunk : list Z) : res (list value) :=
  match fst i with
  | Pad => Ok []
  | Char => Ok [VBytes chunk]
  | Bool => match chunk with [b] => Ok [VBool (negb (b =? 0))] | _ => Err StructError end
  | Int _ signed | SizeT signed => do n <- m_from_bytes chunk (byteorder p) signed; Ok [VInt n]
  | _ => do v <- real_unpack p i chunk; Ok [v]
  end.
Fixpoint unpack_loop (p : prefix) (items : list item) (buffer : list Z) (offset : Z) : res (list value) :=
  match items with
  | [] => Ok []
  | i :: r =>
      let size := item_size p i in
      do v <- unpack_one p i (sslice buffer (Some offset) (Some (offset + size)));
      do rest <- unpack_loop p r buffer (offset + size);
      Ok (v ++ rest)
  end.
(** 238-283 _unpack of a symbolic buffer, after parsing *)
Definition m_unpack (p : prefix) (items : list item) (buffer : list Z) : res (list value) :=
  if slen buffer <? total_size p items then Err StructError
  else unpack_loop p items buffer 0.
(** 322-336 _unpack_from of a symbolic buffer: 336 reaches the patched unpack *)
Definition m_unpack_from (p : prefix) (items : list item) (buffer : list Z) (offset : Z) : res (list value) :=
  m_unpack p items (sslice buffer (Some offset) None).
(** 287-319 _pack_into: the slice assignment of a bytearray *)
Definition m_pack_into (p : prefix) (items : list item) (buffer : list Z) (offset : Z) (args : list value) : res (list Z) :=
  do packed <- m_pack p items args;
  py_setslice buffer (mkSl (Some offset) (Some (offset + slen packed)) None) packed.
(** 339-358 _iter_unpack of a symbolic buffer: all the tuples the generator yields; [size] from the real
    calcsize; the loop does not end when size is 0 *)
Fixpoint iter_loop (fuel : nat) (p : prefix) (items : list item) (size : Z) (buffer : list Z) (offset : Z) : res (list (list value)) :=
  if offset + size <=? slen buffer then
    match fuel with
    | O => Err OutOfFuel
    | S fuel =>
        do t <- m_unpack p items (sslice buffer (Some offset) (Some (offset + size)));
        do rest <- iter_loop fuel p items size buffer (offset + size);
        Ok (t :: rest)
    end
  else Ok [].
Definition m_iter_unpack (* 339-358 *) fuel p items buffer := iter_loop fuel p items (total_size p items) buffer 0.
End Real.
