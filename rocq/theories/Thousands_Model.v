(** Model of thousands separators in formatted decimals: crosshair/libimpl/decimallib.py 5000-5024
    (_group_lengths) and 5027-5062 (_insert_thousands_sep).  A text is the list of its characters;
    the digits are any characters, zeros are put in front of them. *)
From Coq Require Import ZArith List Bool.
From Verif Require Import Py.
Import ListNotations.
Open Scope Z_scope.
Definition text := list Z.
Definition zero : Z := 48.
Definition char_max : Z := 127.

(** 5016-5024: the group lengths, and the one that is repeated after them, if any *)
Definition group_lengths (grouping : list Z) : res (list Z * option Z) :=
  match rev grouping with
  | [] => Ok ([], None)
  | l :: before =>
      match before with
      | g :: _ => if l =? 0 then Ok (removelast grouping, Some g)
                  else if l =? char_max then Ok (removelast grouping, None) else Err ValueError
      | [] => if l =? char_max then Ok (removelast grouping, None) else Err ValueError
      end
  end.
Definition next (gls : list Z) (again : option Z) : option (Z * list Z) :=
  match gls with g :: r => Some (g, r) | [] => match again with Some g => Some (g, []) | None => None end end.
(** 5047-5061: the groups, the rightmost first.  len(sep) is [sep] *)
Fixpoint loop (fuel : nat) (sep : Z) (gls : list Z) (again : option Z) (digits : text) (min_width : Z) : res (list text) :=
  match fuel with
  | O => Err OutOfFuel
  | S fuel =>
      let len := Z.of_nat (length digits) in
      match next gls again with
      | None => let gl := Z.max (Z.max len min_width) 1 in
                Ok [repeat zero (Z.to_nat (gl - len)) ++ skipn (length digits - Z.to_nat gl) digits]
      | Some (gl, gls) =>
          if gl <=? 0 then Err ValueError
          else let gl := Z.min (Z.max (Z.max len min_width) 1) gl in
               let group := repeat zero (Z.to_nat (gl - len)) ++ skipn (length digits - Z.to_nat gl) digits in
               let digits := firstn (length digits - Z.to_nat gl) digits in
               let min_width := min_width - gl in
               match digits with
               | [] => if min_width <=? 0 then Ok [group]
                       else do r <- loop fuel sep gls again digits (min_width - sep); Ok (group :: r)
               | _ => do r <- loop fuel sep gls again digits (min_width - sep); Ok (group :: r)
               end
      end
  end.
(** 5062 sep.join(reversed(groups)) *)
Fixpoint join (sep : text) (l : list text) : text :=
  match l with [] => [] | [g] => g | g :: r => g ++ sep ++ join sep r end.
(** 5027-5062 *)
Definition groups_of (sep : text) (grouping : list Z) (digits : text) (min_width : Z) : res (list text) :=
  do g <- group_lengths grouping;
  loop (S (length digits + Z.to_nat min_width + length grouping)) (Z.of_nat (length sep)) (fst g) (snd g) digits min_width.
Definition insert_thousands_sep (sep : text) (grouping : list Z) (digits : text) (min_width : Z) : res text :=
  do groups <- groups_of sep grouping digits min_width; Ok (join sep (rev groups)).
