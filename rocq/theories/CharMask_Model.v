(** Model of crosshair/unicode_categories.py: CharMask and the masks computed from
    character predicates.  [maxu] stands for sys.maxunicode. *)
From Coq Require Import ZArith List Bool.
From Verif Require Import Py.
Import ListNotations.
Open Scope Z_scope.

(** 45: an element of parts: a code point or a half-open range *)
Inductive part := One (c : Z) | Rng (a b : Z).
Definition mask := list part.
(** 106-113 bounds_at *)
Definition bounds (p : part) : Z * Z := match p with One c => (c, c + 1) | Rng a b => (a, b) end.
(** 101-104 all_bounds *)
Definition all_bounds (m : mask) : list (Z * Z) := map bounds m.
(** 47-68 maybe_add_bounds; parts is mutated: here the new parts are returned *)
Definition add (m : mask) (mn mx : Z) : res mask :=
  if mn <? mx then
    let fresh := m ++ [if mn + 1 =? mx then One mn else Rng mn mx] in
    match rev m with
    | [] => Ok fresh
    | p :: r =>
        let (last_min, last_max) := bounds p in
        if mn <=? last_max then
          if mx <=? last_max then Ok m
          else if mn >=? last_min then Ok (rev r ++ [Rng last_min mx])
          else Err AssertionError
        else Ok fresh
    end
  else Ok m.
Fixpoint add_all (m : mask) (l : list (Z * Z)) : res mask :=
  match l with [] => Ok m | (mn, mx) :: l => do m <- add m mn mx; add_all m l end.
(** 79-93 smt_matches, under an assignment of the character *)
Definition part_matches (c : Z) (p : part) : bool := match p with One x => c =? x | Rng a b => (a <=? c) && (c <? b) end.
Definition smt_matches (m : mask) (c : Z) : bool :=
  match map (part_matches c) m with [] => false | [x] => x | l => existsb (fun x => x) l end.
(** 95-99 covers *)
Definition covers (m : mask) (c : Z) : bool := existsb (fun b => (fst b <=? c) && (c <? snd b)) (all_bounds m).

Section Max.
Variable maxu : Z.
(** 115-121 invert: numbers[i-1], numbers[i] for odd i *)
Fixpoint pairs (l : list Z) : list (Z * Z) := match l with a :: b :: r => (a, b) :: pairs r | _ => [] end.
Definition invert (m : mask) : res mask :=
  add_all [] (pairs ([0] ++ flat_map (fun b => [fst b; snd b]) (all_bounds m) ++ [maxu + 1])).
(** 123-127 union; sorted() compares pairs lexicographically *)
Definition pair_le (x y : Z * Z) : bool := (fst x <? fst y) || ((fst x =? fst y) && (snd x <=? snd y)).
Fixpoint insert (x : Z * Z) (l : list (Z * Z)) : list (Z * Z) :=
  match l with [] => [x] | y :: r => if pair_le x y then x :: l else y :: insert x r end.
Definition sorted (l : list (Z * Z)) : list (Z * Z) := fold_right insert [] l.
Definition union (m o : mask) : res mask := add_all [] (sorted (all_bounds m ++ all_bounds o)).
(** 129-138 intersect *)
Definition intersect (m o : mask) : res mask :=
  add_all [] (flat_map (fun x => map (fun y => (Z.max (fst x) (fst y), Z.min (snd x) (snd y))) (all_bounds o)) (all_bounds m)).
(** 140-141 subtract *)
Definition subtract (m o : mask) : res mask := do i <- invert o; intersect m i.

Definition codepoints : list Z := map Z.of_nat (seq 0 (Z.to_nat (maxu + 1))).
(** 225-231 get_char_predicate_mask *)
Definition predicate_mask (f : Z -> bool) : res mask :=
  add_all [] (map (fun c => (c, c + 1)) (filter f codepoints)).
(** 217-221 get_char_fn_domain_mask over 203-213 get_char_fn_map: the characters the
    function maps; [None] is None or ValueError *)
Definition domain_mask {T} (f : Z -> option T) : res mask :=
  predicate_mask (fun c => match f c with Some _ => true | None => false end).
(** 234-238 make_mask *)
Definition make_mask (vals : list Z) : res mask := add_all [] (map (fun c => (c, c + 1)) vals).

(** 144-168 compute_categories, the mask of one category [k]: the loop over the code
    points from 1, with the category of each *)
Section Cat.
Variable K : Type.
Variable eqb : K -> K -> bool.
Variable category : Z -> K.
Fixpoint cat_loop (k : K) (points : list Z) (last_point : Z) (last_category : K) (data : mask) : mask :=
  match points with
  | [] => if eqb (category maxu) k then data ++ [Rng last_point (maxu + 1)] else data
  | cur :: r =>
      if negb (eqb (category cur) last_category) then
        cat_loop k r cur (category cur)
          (if eqb last_category k then data ++ [if cur =? last_point + 1 then One last_point else Rng last_point cur] else data)
      else cat_loop k r last_point last_category data
  end.
Definition category_mask (k : K) : mask := cat_loop k (tl codepoints) 0 (category 0) [].
End Cat.

(** 189-196 get_unicode_mask: the union of the named categories' masks *)
Fixpoint union_all (m : mask) (l : list mask) : res mask :=
  match l with [] => Ok m | o :: l => do m <- union m o; union_all m l end.
Definition unicode_mask (first : mask) (others : list mask) (inv : bool) : res mask :=
  do m <- union_all first others; if inv then invert m else Ok m.
End Max.
