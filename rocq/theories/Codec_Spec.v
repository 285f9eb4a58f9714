(** Character encodings, from the Unicode Standard (chapter 3, conformance) and the
    Python codecs documentation. *)
From Coq Require Import ZArith List Bool.
Import ListNotations.
Open Scope Z_scope.

Definition code_point (c : Z) : Prop := 0 <= c <= 0x10FFFF.
Definition surrogate (c : Z) : Prop := 0xD800 <= c <= 0xDFFF.
Definition surrogateb (c : Z) : bool := (0xD800 <=? c) && (c <=? 0xDFFF).
Definition scalar (c : Z) : Prop := code_point c /\ ~ surrogate c.
Definition byte_value (b : Z) : Prop := 0 <= b <= 255.

(** Table 3-6: the code point's base-64 digits, under a lead byte giving the length *)
Definition u8 (c : Z) : list Z :=
  if c <? 0x80 then [c]
  else if c <? 0x800 then [0xC0 + c / 64; 0x80 + c mod 64]
  else if c <? 0x10000 then [0xE0 + c / 4096; 0x80 + c / 64 mod 64; 0x80 + c mod 64]
  else [0xF0 + c / 262144; 0x80 + c / 4096 mod 64; 0x80 + c / 64 mod 64; 0x80 + c mod 64].
Definition utf8 (s : list Z) : list Z := flat_map u8 s.

(** A strict decoder over the characters [ok]: either the bytes encode a string of such
    characters, or position [p] is where the first undecodable sequence starts. *)
Definition encodes (ok : Z -> Prop) (b s : list Z) : Prop := Forall ok s /\ b = utf8 s.
Definition fails_at (ok : Z -> Prop) (b : list Z) (p : Z) : Prop :=
  exists s r, Forall ok s /\ b = utf8 s ++ r /\ p = Z.of_nat (length (utf8 s)) /\ r <> []
              /\ forall c q, ok c -> r <> u8 c ++ q.

(** Table 3-7: the byte ranges that may follow a lead byte *)
Definition follow (lead : Z) : option (list (Z * Z)) :=
  let any := (0x80, 0xBF) in
  if lead <? 0x80 then Some []
  else if lead <? 0xC2 then None
  else if lead <? 0xE0 then Some [any]
  else if lead =? 0xE0 then Some [(0xA0, 0xBF); any]
  else if lead =? 0xED then Some [(0x80, 0x9F); any]
  else if lead <? 0xF0 then Some [any; any]
  else if lead =? 0xF0 then Some [(0x90, 0xBF); any; any]
  else if lead <? 0xF4 then Some [any; any; any]
  else if lead =? 0xF4 then Some [(0x80, 0x8F); any; any]
  else None.
Fixpoint matched (rs : list (Z * Z)) (b : list Z) : nat :=
  match rs, b with
  | (lo, hi) :: rs, x :: b => if (lo <=? x) && (x <=? hi) then S (matched rs b) else O
  | _, _ => O
  end.
(** What stands at the front: a character, or an ill-formed sequence of some length
    ("maximal subpart": one error each) *)
Inductive front := Char (c : Z) (k : nat) | Bad (k : nat).
Definition lead_bits (n : nat) (lead : Z) : Z :=
  match n with O => lead | 1%nat => lead - 0xC0 | 2%nat => lead - 0xE0 | _ => lead - 0xF0 end.
Definition next (b : list Z) : option front :=
  match b with
  | [] => None
  | lead :: r =>
      match follow lead with
      | None => Some (Bad 1)
      | Some rs =>
          let k := matched rs r in
          if (k =? length rs)%nat
          then Some (Char (fold_left (fun acc x => acc * 64 + (x - 0x80)) (firstn k r) (lead_bits k lead)) (S k))
          else Some (Bad (S k))
      end
  end.
(** Decoding with an error handler: [rep k] is inserted for an ill-formed sequence of
    length [k].  errors="ignore" inserts nothing, "replace" one U+FFFD. *)
Inductive decoding (rep : nat -> list Z) : list Z -> list Z -> Prop :=
| d_end : decoding rep [] []
| d_char b c k s : next b = Some (Char c k) -> decoding rep (skipn k b) s -> decoding rep b (c :: s)
| d_bad b k s : next b = Some (Bad k) -> decoding rep (skipn k b) s -> decoding rep b (rep k ++ s).
Definition py_ignore (k : nat) : list Z := [].
Definition py_replace (k : nat) : list Z := [0xFFFD].

(** ASCII and Latin-1: one byte per character below the limit *)
Definition below (limit : Z) (c : Z) : Prop := 0 <= c < limit.
(** The position of the first character that is not below the limit *)
Definition first_over (limit : Z) (s : list Z) (p : Z) : Prop :=
  exists s1 c s2, s = s1 ++ c :: s2 /\ Forall (fun c => c < limit) s1 /\ limit <= c /\ p = Z.of_nat (length s1).
(** Each character below the limit is itself; others are replaced by [rep] *)
Definition per_char (limit : Z) (rep : Z -> list Z) (s : list Z) : list Z :=
  flat_map (fun c => if c <? limit then [c] else rep c) s.
