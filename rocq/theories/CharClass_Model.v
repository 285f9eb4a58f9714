(** Model of the masks of single-character patterns: crosshair/libimpl/relib.py
    77-213, for patterns over str.  [maxu] stands for sys.maxunicode. *)
From Coq Require Import ZArith List Bool.
From Verif Require Import Py CharMask_Model.
Import ListNotations.
Open Scope Z_scope.

Inductive category := Digit | Space | Word.
(** What sre_parse makes of a single character: LITERAL, NOT_LITERAL, RANGE,
    CATEGORY_x and CATEGORY_NOT_x, ANY; and IN, a set of terms, perhaps negated. *)
Inductive term := TLiteral (c : Z) | TNotLiteral (c : Z) | TRange (lo hi : Z) | TCategory (negated : bool) (k : category) | TAny.
Inductive item := ITerm (t : term) | IIn (negated : bool) (ts : list term).

Record flags := mkFlags { ignorecase : bool; ascii : bool; dotall : bool }.

Section CC.
Variable maxu : Z.
Variable lower upper : Z -> option Z.    (* chr(c).lower(); None: more than one character *)
Variable other_letter : Z -> bool.       (* category(chr(c)) == "Lo" *)
Variable ci : Z -> Z -> bool.            (* re.fullmatch(re.escape(chr(c)), chr(x), re.IGNORECASE) *)
Variable nd word : mask.                 (* get_unicode_categories()["Nd"], ["word"] *)

(** 77-99 *)
Definition any_char : mask := [Rng 0 (maxu + 1)].
Definition any_non_newline : res mask := subtract maxu any_char [One 10].
Definition ascii_char : mask := [Rng 0 128].
Definition ascii_whitespace : mask := [Rng 9 14; One 32].
Definition unicode_whitespace : res mask :=
  union ascii_whitespace [Rng 28 32; One 133; One 160; One 5760; Rng 8192 8203; Rng 8232 8234; One 8239; One 8287; One 12288].

(** 105-119 caseable_chars *)
Definition caseable : list Z := filter (fun c => negb (other_letter c)) (codepoints maxu).
(** 129: re.compile(chr(cp), re.IGNORECASE).findall(chars), then ord of each match.
    The character is compiled as a pattern: some characters are no pattern, some match
    the empty string (whose ord is a TypeError), and a dot matches any character. *)
Definition finds (cp : Z) : res (list Z) :=
  if existsb (Z.eqb cp) [40; 41; 42; 43; 63; 91; 92] then Err ReError
  else if existsb (Z.eqb cp) [36; 94; 124] then Err TypeError
  else if cp =? 46 then Ok (filter (fun x => negb (x =? 10)) caseable)
  else Ok (filter (ci cp) caseable).
(** 125-132 *)
Definition unicode_ignorecase_mask (cp : Z) : res mask := do l <- finds cp; Ok (map One l).

Definition ord_of (o : option Z) : res Z := match o with Some x => Ok x | None => Err TypeError end.

(** 135-213 single_char_mask, without IN *)
Definition term_mask (f : flags) (t : term) : res mask :=
  let clip m := if ascii f then intersect m ascii_char else Ok m in
  let literal c :=                                                          (* 149-155 *)
    if ignorecase f then do m <- unicode_ignorecase_mask c; clip m else Ok [One c] in
  match t with
  | TLiteral c => literal c
  | TNotLiteral c => do m <- literal c; invert maxu m                       (* 156-157 *)
  | TRange lo hi =>                                                         (* 158-171 *)
      if ignorecase f then
        do a <- ord_of (lower lo); do b <- ord_of (lower hi);
        do c <- ord_of (upper lo); do d <- ord_of (upper hi);
        clip [Rng a (b + 1); Rng c (d + 1)]
      else Ok [Rng lo (hi + 1)]
  | TCategory negated k =>                                                  (* 184-208 *)
      do m <- match k with
              | Digit => clip nd
              | Space => if ascii f then Ok ascii_whitespace else unicode_whitespace
              | Word => clip word
              end;
      if negated then invert maxu m else Ok m
  | TAny => if dotall f then Ok any_char else any_non_newline               (* 209-210 *)
  end.
(** 172-183 *)
Fixpoint union_terms (f : flags) (m : mask) (ts : list term) : res mask :=
  match ts with
  | [] => Ok m
  | t :: ts => do sub <- term_mask f t; do m <- union m sub; union_terms f m ts
  end.
Definition item_mask (f : flags) (i : item) : res mask :=
  match i with
  | ITerm t => term_mask f t
  | IIn negated ts => do m <- union_terms f [] ts; if negated then invert maxu m else Ok m
  end.
End CC.
