(** The JSON texts and what they mean (RFC 8259, with the three extra constants NaN, Infinity and
    -Infinity of Python's json module), and the bytes that encode a text.  A text is its list of
    code points.  Only the types of the values are taken from the model. *)
From Coq Require Import ZArith List Bool.
From Verif Require Import Py Json_Model.
Import ListNotations.
Open Scope Z_scope.

(** space, tab, line feed, carriage return *)
Definition blank (s : str) : Prop := Forall (fun c => c = 32 \/ c = 9 \/ c = 10 \/ c = 13) s.
Definition decimal_digit (c : Z) : Prop := 48 <= c <= 57.

(** number = [ minus ] int [ frac ] [ exp ] *)
Definition int_part (s : str) : Prop :=
  exists sign ds, s = sign ++ ds /\ (sign = [] \/ sign = [45]) /\
    (ds = [48] \/ exists c r, ds = c :: r /\ 49 <= c <= 57 /\ Forall decimal_digit r).
Definition frac_part (s : str) : Prop := exists c r, s = 46 :: c :: r /\ Forall decimal_digit (c :: r).
Definition exp_part (s : str) : Prop :=
  exists e sign c r, s = e :: sign ++ c :: r /\ (e = 101 \/ e = 69) /\ (sign = [] \/ sign = [43] \/ sign = [45]) /\
    Forall decimal_digit (c :: r).
(** a number that is not just an integer *)
Definition real_number (s : str) : Prop :=
  exists i f e, s = i ++ f ++ e /\ int_part i /\ (f = [] \/ frac_part f) /\ (e = [] \/ exp_part e) /\ (f <> [] \/ e <> []).

(** four hexadecimal digits and their value *)
Definition hex_value (c x : Z) : Prop :=
  (48 <= c <= 57 /\ x = c - 48) \/ (97 <= c <= 102 /\ x = c - 97 + 10) \/ (65 <= c <= 70 /\ x = c - 65 + 10).
Definition hex4 (h : str) (n : Z) : Prop :=
  exists a b c d x y z t, h = [a; b; c; d] /\ hex_value a x /\ hex_value b y /\ hex_value c z /\ hex_value d t /\
    n = x * 4096 + y * 256 + z * 16 + t.
(** the two-character escapes *)
Definition short_escapes : list (Z * Z) := [(34, 34); (92, 92); (47, 47); (98, 8); (102, 12); (110, 10); (114, 13); (116, 9)].
Definition high (n : Z) : Prop := 0xD800 <= n <= 0xDBFF.
Definition low (n : Z) : Prop := 0xDC00 <= n <= 0xDFFF.
Definition joined (n1 n2 : Z) : Z := 0x10000 + (n1 - 0xD800) * 0x400 + (n2 - 0xDC00).

(** The characters between the quotes of a string, and the string they stand for.  [hex] says which
    four characters may follow a backslash and u, and what number they are; [strict] whether
    control characters are forbidden. *)
Inductive chars (hex : str -> Z -> Prop) (strict : bool) : str -> str -> Prop :=
| chars_nil : chars hex strict [] []
| chars_plain : forall c t v, c <> 34 -> c <> 92 -> (0 <= c < 32 -> strict = false) ->
    chars hex strict t v -> chars hex strict (c :: t) (c :: v)
| chars_short : forall e c t v, In (e, c) short_escapes -> chars hex strict t v -> chars hex strict (92 :: e :: t) (c :: v)
| chars_u : forall h n t v, hex h n ->
    ~ (high n /\ exists h2 n2 r, t = 92 :: 117 :: h2 ++ r /\ hex h2 n2 /\ low n2) ->
    chars hex strict t v -> chars hex strict (92 :: 117 :: h ++ t) (n :: v)
| chars_pair : forall h1 n1 h2 n2 t v, hex h1 n1 -> high n1 -> hex h2 n2 -> low n2 ->
    chars hex strict t v -> chars hex strict (92 :: 117 :: h1 ++ 92 :: 117 :: h2 ++ t) (joined n1 n2 :: v).

(** an object has the last value given for a key, at the place of the first *)
Fixpoint same (a b : str) : bool :=
  match a, b with [], [] => true | x :: a, y :: b => (x =? y) && same a b | _, _ => false end.
Fixpoint drop_key {V : Type} (k : str) (l : list (str * V)) : list (str * V) :=
  match l with [] => [] | (k', v) :: l => if same k' k then drop_key k l else (k', v) :: drop_key k l end.
Fixpoint last_of {V : Type} (k : str) (v : V) (l : list (str * V)) : V :=
  match l with [] => v | (k', v') :: l => last_of k (if same k' k then v' else v) l end.
Fixpoint as_dict {V : Type} (fuel : nat) (l : list (str * V)) : list (str * V) :=
  match fuel, l with
  | S n, (k, v) :: l => (k, last_of k v l) :: as_dict n (drop_key k l)
  | _, _ => []
  end.

Section Grammar.
Variable F : Type.
Variables nan inf neginf : F.
Variable parse_float : str -> res F.
Variable parse_int : str -> res Z.
Variable hex : str -> Z -> Prop.
Variable strict : bool.
(** whether the three constants are allowed *)
Variable constants : bool.

Inductive value : str -> val F -> Prop :=
| value_null : value [110; 117; 108; 108] JNull
| value_true : value [116; 114; 117; 101] (JBool true)
| value_false : value [102; 97; 108; 115; 101] (JBool false)
| value_int : forall t z, int_part t -> parse_int t = Ok z -> value t (JInt z)
| value_real : forall t f, real_number t -> parse_float t = Ok f -> value t (JFloat f)
| value_nan : constants = true -> value [78; 97; 78] (JFloat nan)
| value_inf : constants = true -> value [73; 110; 102; 105; 110; 105; 116; 121] (JFloat inf)
| value_neginf : constants = true -> value [45; 73; 110; 102; 105; 110; 105; 116; 121] (JFloat neginf)
| value_string : forall t s, chars hex strict t s -> value (34 :: t ++ [34]) (JStr s)
| value_empty_array : forall b, blank b -> value (91 :: b ++ [93]) (JList [])
| value_array : forall t vs, elements t vs -> value (91 :: t ++ [93]) (JList vs)
| value_empty_object : forall b, blank b -> value (123 :: b ++ [125]) (JDict [])
| value_object : forall t ps, members t ps -> value (123 :: t ++ [125]) (JDict (as_dict (length ps) ps))
with elements : str -> list (val F) -> Prop :=
| elements_one : forall b1 t b2 v, blank b1 -> value t v -> blank b2 -> elements (b1 ++ t ++ b2) [v]
| elements_more : forall b1 t b2 v t' vs, blank b1 -> value t v -> blank b2 -> elements t' vs ->
    elements (b1 ++ t ++ b2 ++ 44 :: t') (v :: vs)
with members : str -> list (str * val F) -> Prop :=
| members_one : forall b1 k s b2 b3 t v b4, blank b1 -> chars hex strict k s -> blank b2 -> blank b3 -> value t v -> blank b4 ->
    members (b1 ++ 34 :: k ++ 34 :: b2 ++ 58 :: b3 ++ t ++ b4) [(s, v)]
| members_more : forall b1 k s b2 b3 t v b4 t' ps, blank b1 -> chars hex strict k s -> blank b2 -> blank b3 -> value t v -> blank b4 ->
    members t' ps ->
    members (b1 ++ 34 :: k ++ 34 :: b2 ++ 58 :: b3 ++ t ++ b4 ++ 44 :: t') ((s, v) :: ps).
Definition json_text (s : str) (v : val F) : Prop :=
  exists b1 t b2, s = b1 ++ t ++ b2 /\ blank b1 /\ value t v /\ blank b2.
End Grammar.

(** * What is read back after writing a value *)
Section Written.
Variable F : Type.
Variable float_text : F -> str.
Variable int_text : Z -> str.
Definition key_text (k : key F) : option str :=
  match k with
  | KStr s => Some s
  | KFloat f => Some (float_text f)
  | KBool b => Some (if b then [116; 114; 117; 101] else [102; 97; 108; 115; 101])
  | KNone => Some [110; 117; 108; 108]
  | KInt z => Some (int_text z)
  | KOther => None
  end.
(** tuples become lists, keys become strings, entries whose key has no text are left out *)
Fixpoint read_back (v : pyv F) : val F :=
  match v with
  | PNone | POther => JNull
  | PBool b => JBool b
  | PInt z => JInt z
  | PFloat f => JFloat f
  | PStr s => JStr s
  | PList l => JList (map read_back l)
  | PTuple l => JList (map read_back l)
  | PDict l =>
      let ps := (fix entries (l : list (key F * pyv F)) : list (str * val F) :=
                   match l with
                   | [] => []
                   | (k, v) :: l => match key_text k with Some s => (s, read_back v) :: entries l | None => entries l end
                   end) l in
      JDict (as_dict (length ps) ps)
  end.

(** all the strings and keys of a value satisfy [ok]; all its floats satisfy [okf];
    it has no object of another type, and no such key unless they are skipped *)
Section All.
Variable ok : str -> Prop.
Variable okf : F -> Prop.
Variable skip : bool.
Inductive all : pyv F -> Prop :=
| all_none : all PNone
| all_bool : forall b, all (PBool b)
| all_int : forall z, all (PInt z)
| all_float : forall f, okf f -> all (PFloat f)
| all_str : forall s, ok s -> all (PStr s)
| all_list : forall l, Forall all l -> all (PList l)
| all_tuple : forall l, Forall all l -> all (PTuple l)
| all_dict : forall l, Forall (fun p => (fst p = KOther /\ skip = true) \/ (all_key (fst p) /\ all (snd p))) l -> all (PDict l)
with all_key : key F -> Prop :=
| key_str : forall s, ok s -> all_key (KStr s)
| key_float : forall f, okf f -> all_key (KFloat f)
| key_bool : forall b, all_key (KBool b)
| key_none : all_key KNone
| key_int : forall z, all_key (KInt z).
End All.
End Written.

Section Floats.
Variable F : Type.
Variable feq : F -> F -> bool.
Variables inf neginf : F.
Variable float_repr : F -> str.
(** a float that is a number: equal to itself and not infinite *)
Definition finite (f : F) : Prop := feq f f = true /\ feq f inf = false /\ feq f neginf = false.
Definition float_text (f : F) : str :=
  if negb (feq f f) then [78; 97; 78]
  else if feq f inf then [73; 110; 102; 105; 110; 105; 116; 121]
  else if feq f neginf then [45; 73; 110; 102; 105; 110; 105; 116; 121]
  else float_repr f.
End Floats.
Definition code_points (s : str) : Prop := Forall (fun c => 0 <= c <= 0x10FFFF) s.
(** no high surrogate is directly followed by a low one *)
Definition unpaired (s : str) : Prop := forall a c d b, s = a ++ c :: d :: b -> ~ (high c /\ low d).

(** * Encodings: the bytes of a text *)
Definition big (n : nat) (c : Z) : list Z := map (fun i => c / 256 ^ Z.of_nat i mod 256) (rev (List.seq 0 n)).
Definition units16 (c : Z) : list Z :=
  if c <? 0x10000 then [c] else [0xD800 + (c - 0x10000) / 0x400; 0xDC00 + (c - 0x10000) mod 0x400].
Definition utf8_bytes (c : Z) : list Z :=
  if c <? 0x80 then [c]
  else if c <? 0x800 then [192 + c / 64; 128 + c mod 64]
  else if c <? 0x10000 then [224 + c / 4096; 128 + c / 64 mod 64; 128 + c mod 64]
  else [240 + c / 262144; 128 + c / 4096 mod 64; 128 + c / 64 mod 64; 128 + c mod 64].
Definition text_bytes (e : enc) (s : str) : list Z :=
  match e with
  | utf_8 => flat_map utf8_bytes s
  | utf_8_sig => [0xEF; 0xBB; 0xBF] ++ flat_map utf8_bytes s
  | utf_16_be => flat_map (big 2) (flat_map units16 s)
  | utf_16_le => flat_map (fun c => rev (big 2 c)) (flat_map units16 s)
  | utf_32_be => flat_map (big 4) s
  | utf_32_le => flat_map (fun c => rev (big 4 c)) s
  (* with a byte order mark, here little-endian *)
  | utf_16 => [0xFF; 0xFE] ++ flat_map (fun c => rev (big 2 c)) (flat_map units16 s)
  | utf_32 => [0xFF; 0xFE; 0; 0] ++ flat_map (fun c => rev (big 4 c)) s
  end.
(** the other byte order *)
Definition text_bytes_big_mark (wide : bool) (s : str) : list Z :=
  if wide then [0; 0; 0xFE; 0xFF] ++ flat_map (big 4) s else [0xFE; 0xFF] ++ flat_map (big 2) (flat_map units16 s).
