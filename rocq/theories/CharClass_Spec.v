(** What a single-character pattern matches, according to the documentation of re. *)
From Coq Require Import ZArith List Bool.
From Verif Require Import Py CharMask_Model CharMask_Spec CharClass_Model.
Import ListNotations.
Open Scope Z_scope.

(** With re.ASCII, only ASCII letters have two cases. *)
Definition ascii_lower (c : Z) : Z := if (65 <=? c) && (c <=? 90) then c + 32 else c.
Definition ascii_ci (c x : Z) : bool := ascii_lower c =? ascii_lower x.

Definition ascii_digit (x : Z) : Prop := 48 <= x <= 57.
Definition ascii_space (x : Z) : Prop := 9 <= x <= 13 \/ x = 32.
Definition unicode_space (x : Z) : Prop :=
  ascii_space x \/ 28 <= x <= 31 \/ x = 133 \/ x = 160 \/ x = 5760 \/ 8192 <= x <= 8202 \/
  x = 8232 \/ x = 8233 \/ x = 8239 \/ x = 8287 \/ x = 12288.
Definition ascii_word (x : Z) : Prop := 48 <= x <= 57 \/ 65 <= x <= 90 \/ x = 95 \/ 97 <= x <= 122.

Section S.
Variable ci : Z -> Z -> bool.
Variable digit word : Z -> Prop.         (* str.isdecimal; str.isalnum or underscore *)
Definition same (f : flags) (c x : Z) : Prop :=
  if ignorecase f then if ascii f then ascii_ci c x = true else ci c x = true else x = c.
Definition term_matches (f : flags) (t : term) (x : Z) : Prop :=
  match t with
  | TLiteral c => same f c x
  | TNotLiteral c => ~ same f c x
  | TRange lo hi => exists c, lo <= c <= hi /\ same f c x
  | TCategory negated k =>
      let P := match k with
               | Digit => if ascii f then ascii_digit x else digit x
               | Space => if ascii f then ascii_space x else unicode_space x
               | Word => if ascii f then ascii_word x else word x
               end in
      if negated then ~ P else P
  | TAny => if dotall f then True else x <> 10
  end.
Definition item_matches (f : flags) (i : item) (x : Z) : Prop :=
  match i with
  | ITerm t => term_matches f t x
  | IIn negated ts =>
      let P := exists t, In t ts /\ term_matches f t x in if negated then ~ P else P
  end.
End S.

(** What the model is told about Unicode *)
Record unicode (maxu : Z) (other_letter : Z -> bool) (ci : Z -> Z -> bool)
       (digit word : Z -> Prop) (nd wordm : mask) : Prop := {
  u_max : 12288 <= maxu;
  u_ci_ascii : forall c x, 0 <= c < 128 -> 0 <= x < 128 -> ci c x = ascii_ci c x;
  (* a letter without case has no case variants *)
  u_other : forall c x, other_letter x = true -> ci c x = true -> c = x;
  u_nd : valid maxu nd /\ forall x, 0 <= x <= maxu -> (holds nd x <-> digit x);
  u_word : valid maxu wordm /\ forall x, 0 <= x <= maxu -> (holds wordm x <-> word x);
  u_digit_ascii : forall x, 0 <= x < 128 -> (digit x <-> ascii_digit x);
  u_word_ascii : forall x, 0 <= x < 128 -> (word x <-> ascii_word x) }.

(** The terms the code handles right *)
Section F.
Variable maxu : Z.
Variable lower upper : Z -> option Z.
Variable other_letter : Z -> bool.
Variable ci : Z -> Z -> bool.
Definition special (c : Z) : bool := existsb (Z.eqb c) [36; 40; 41; 42; 43; 46; 63; 91; 92; 94; 124].
Definition fine_term (f : flags) (t : term) : Prop :=
  match t with
  | TLiteral c | TNotLiteral c =>
      0 <= c <= maxu /\
      (ignorecase f = true -> special c = false /\ other_letter c = false /\ (ascii f = true -> c < 128))
  | TRange lo hi =>
      0 <= lo <= hi /\ hi <= maxu /\
      (ignorecase f = true ->
       if ascii f then
         (* no letters *)
         hi < 128 /\ lower lo = Some lo /\ upper lo = Some lo /\ lower hi = Some hi /\ upper hi = Some hi /\
         forall c, lo <= c <= hi -> ~ (65 <= c <= 90 \/ 97 <= c <= 122)
       else
         (* the range of lower-case and that of upper-case characters have all variants *)
         exists a b c d, lower lo = Some a /\ lower hi = Some b /\ upper lo = Some c /\ upper hi = Some d /\
           0 <= a <= b /\ b <= maxu /\ 0 <= c <= d /\ d <= maxu /\
           forall x, 0 <= x <= maxu -> ((a <= x <= b \/ c <= x <= d) <-> exists i, lo <= i <= hi /\ ci i x = true))
  | _ => True
  end.
(** RANGE occurs only within IN. *)
Definition fine_item (f : flags) (i : item) : Prop :=
  match i with
  | ITerm t => fine_term f t
  | IIn _ ts => Forall (fine_term f) ts
  end.
End F.
