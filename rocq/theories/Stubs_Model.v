(** Model of crosshair/stubs_parser.py _rewrite_with_union 268-316: the rewriting of "X | Y" in annotations of type
    stubs as "Union[X, Y]", for Python before 3.10.  Characters are code points. *)
From Coq Require Import ZArith List Bool.
Import ListNotations.

Definition text := list Z.
Definition BAR : Z := 124%Z.
Definition COMMA : Z := 44%Z.
Definition UNION : text := [85; 110; 105; 111; 110; 91]%Z.      (* Union[ *)
Definition is_open (c : Z) : bool := Z.eqb c 40 || Z.eqb c 91.
Definition is_close (c : Z) : bool := Z.eqb c 41 || Z.eqb c 93.
(** str.replace("|", ",") *)
Definition replace (s : text) : text := map (fun c => if Z.eqb c BAR then COMMA else c) s.

Record state := State { s_new : text; saved : list (nat * bool); start : nat; found : bool; idx : nat }.
(** 288-312; popping from an empty list of saved states is an error *)
Definition step (st : option state) (c : Z) : option state :=
  match st with
  | None => None
  | Some st =>
      let found1 := if Z.eqb c BAR then true else found st in
      let closing := is_close c || Z.eqb c COMMA in
      let '(s, i) :=
        if closing && found1 then
          (firstn (start st + 1) (s_new st) ++ UNION ++ replace (skipn (start st + 1) (firstn (idx st) (s_new st))) ++ [93%Z] ++ skipn (idx st) (s_new st),
           idx st + 7)
        else (s_new st, idx st) in
      let popped :=
        if is_close c then match saved st with [] => None | (b, f) :: r => Some (b, f, r) end
        else Some (start st, found1, saved st) in
      match popped with
      | None => None
      | Some (b, f, r) =>
          if is_open c || Z.eqb c COMMA then
            Some (State s (if Z.eqb c COMMA then r else (b, f) :: r) i false (i + 1))
          else Some (State s r b f (i + 1))
      end
  end.
Definition rewrite (s : text) : option text :=
  match fold_left step s (Some (State s [] 0 false 0)) with
  | None => None
  | Some st => Some (if found st then UNION ++ replace (s_new st) ++ [93%Z] else s_new st)
  end.
