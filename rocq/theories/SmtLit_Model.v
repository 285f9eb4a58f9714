(** Model of the reading of values from the solver: crosshair/smtlib.py parse_smtlib_literal 15-24, and the cases of
    crosshair/statespace.py model_value_to_python 179-201 for sequences and reals.

    Texts are lists of character codes.  A float is the number of its 64 bits.  Digits other than ASCII digits, which
    the pattern of line 5 lets pass, and the approximation of irrational values are not modelled. *)
From Coq Require Import ZArith List Bool String Ascii.
Import ListNotations.
Open Scope Z_scope.

Definition text := list Z.
Fixpoint txt (s : string) : text := match s with EmptyString => [] | String a s => Z.of_nat (nat_of_ascii a) :: txt s end.
Fixpoint text_eqb (a b : text) : bool :=
  match a, b with [], [] => true | x :: a, y :: b => (x =? y) && text_eqb a b | _, _ => false end.

(** LITERAL_CONSTS 6-12, with the bits of -0.0, 0.0, -inf, inf and nan *)
Definition literal_consts : list (text * Z) :=
  [(txt "(_ -zero 11 53)", 2 ^ 63); (txt "(_ +zero 11 53)", 0);
   (txt "(_ -oo 11 53)", 2 ^ 63 + 2047 * 2 ^ 52); (txt "(_ +oo 11 53)", 2047 * 2 ^ 52);
   (txt "(_ NaN 11 53)", 2047 * 2 ^ 52 + 2 ^ 51)].
Fixpoint lookup (l : list (text * Z)) (t : text) : option Z :=
  match l with [] => None | (k, v) :: l => if text_eqb k t then Some v else lookup l t end.

Fixpoint after (prefix t : text) : option text :=
  match prefix, t with
  | [], _ => Some t
  | p :: prefix, c :: t => if p =? c then after prefix t else None
  | _, [] => None
  end.
Definition is_digit (c : Z) : bool := (48 <=? c) && (c <=? 57).
(** the longest run of digits, and what follows: a digit cannot match what follows the group in the pattern *)
Fixpoint span (t : text) : text * text :=
  match t with
  | c :: r => if is_digit c then let '(d, s) := span r in (c :: d, s) else ([], t)
  | [] => ([], [])
  end.
(** .+ and the last parenthesis; a dot does not match the end of a line *)
Fixpoint up_to_last (t : text) : option text :=
  match t with
  | [] => None
  | [c] => if c =? 41 then Some [] else None
  | c :: r => if c =? 10 then None else match up_to_last r with Some s => Some (c :: s) | None => None end
  end.
(** the digits of int("0b...", base=0) and int("0x...", base=0); None is a ValueError.  Underscores are not modelled. *)
Definition digit_value (c : Z) : option Z :=
  if is_digit c then Some (c - 48)
  else if (97 <=? c) && (c <=? 102) then Some (c - 87)
  else if (65 <=? c) && (c <=? 70) then Some (c - 55) else None.
Fixpoint int_digits (base acc : Z) (t : text) : option Z :=
  match t with
  | [] => Some acc
  | c :: t => match digit_value c with
              | Some d => if d <? base then int_digits base (base * acc + d) t else None
              | None => None
              end
  end.
Inductive parsed := Bits (b : Z) | NoMatch | Failed.
(** 15-24.  NoMatch: None is returned. *)
Definition parse (t : text) : parsed :=
  match lookup literal_consts t with
  | Some b => Bits b
  | None =>
      match after (txt "(fp #b") t with
      | None => NoMatch
      | Some t1 =>
          let '(sign, t2) := span t1 in
          match after (txt " #b") t2 with
          | None => NoMatch
          | Some t3 =>
              let '(exp, t4) := span t3 in
              match after (txt " #x") t4 with
              | None => NoMatch
              | Some t5 =>
                  match up_to_last t5 with
                  | None => NoMatch
                  | Some significand =>
                      match sign, exp, significand with
                      | _ :: _, _ :: _, _ :: _ =>
                          match int_digits 2 0 sign, int_digits 2 0 exp, int_digits 16 0 significand with
                          | Some s, Some e, Some m => Bits (Z.lor (Z.lor (Z.shiftl s 63) (Z.shiftl e 52)) m)
                          | _, _, _ => Failed
                          end
                      | _, _, _ => NoMatch
                      end
                  end
              end
          end
      end
  end.

(** sequences as the solver gives them, statespace.py 185-192 *)
Inductive seq_value (A : Type) := Empty | Unit (a : A) | Concat (parts : list (seq_value A)).
Arguments Empty {A}. Arguments Unit {A}. Arguments Concat {A}.
(** num_args, with arg: of a unit, its only argument is the element *)
Fixpoint seq_to_list {A} (v : seq_value A) : option (list A) :=
  match v with
  | Concat [Unit a; rest] => option_map (cons a) (seq_to_list rest)
  | Concat [_; _] => None                 (* arg(0).arg(0) is not an element *)
  | Unit a => Some [a]
  | Concat [_] => None
  | _ => Some []
  end.
