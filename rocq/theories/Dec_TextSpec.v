(** The texts of decimal numbers: the grammar of the documentation of decimal.Decimal

      sign           ::=  '+' | '-'
      indicator      ::=  'e' | 'E'
      digits         ::=  digit [digit]...
      decimal-part   ::=  digits '.' [digits] | ['.'] digits
      exponent-part  ::=  indicator [sign] digits
      infinity       ::=  'Infinity' | 'Inf'
      nan            ::=  'NaN' [digits] | 'sNaN' [digits]
      numeric-value  ::=  decimal-part [exponent-part] | infinity
      numeric-string ::=  [sign] numeric-value | [sign] nan

    in any case, without surrounding white space and underscores. *)
From Coq Require Import ZArith List Bool.
From Verif Require Import Dec_Model Dec_Spec Dec_Text.
Import ListNotations.
Open Scope Z_scope.

Definition digits (ds : list Z) : list ch := map Dig ds.
Definition sign_text (m : option bool) : list ch := match m with None => [] | Some m => [Sgn m] end.
Definition negative (m : option bool) : bool := match m with Some true => true | _ => false end.
(** a word in any case; [odd]: also with the other characters that stand for a letter *)
Inductive spelled (odd : bool) : list letter -> list ch -> Prop :=
| spelled_nil : spelled odd [] []
| spelled_cons l f ls s : (f = Odd -> odd = true) -> spelled odd ls s -> spelled odd (l :: ls) (Let l f :: s).
Inductive exponent_part (odd : bool) : list ch -> Z -> Prop :=
| no_exponent : exponent_part odd [] 0
| some_exponent f m ds : (f = Odd -> odd = true) -> ds <> [] ->
    exponent_part odd (Let LE f :: sign_text m ++ digits ds) (if negative m then - number ds else number ds).
(** the coefficient with number n: its digits without leading zeros *)
Definition coefficient_of (n : Z) (i : list Z) : Prop := coefficient i /\ number i = n.
Definition payload_of (n : Z) (p : list Z) : Prop := Forall is_digit p /\ hd 1 p <> 0 /\ number p = n.
Inductive literal (odd : bool) : list ch -> dec -> Prop :=
| lit_point m a b x e i : (a ++ b) <> [] -> Forall is_digit (a ++ b) -> exponent_part odd x e -> coefficient_of (number (a ++ b)) i ->
    literal odd (sign_text m ++ digits a ++ Dot :: digits b ++ x) (Fin (negative m) i (e - Z.of_nat (length b)))
| lit_whole m a x e i : a <> [] -> Forall is_digit a -> exponent_part odd x e -> coefficient_of (number a) i ->
    literal odd (sign_text m ++ digits a ++ x) (Fin (negative m) i e)
| lit_inf m w : spelled odd [LI; LN; LF] w \/ spelled odd [LI; LN; LF; LI; LN; LI; LT; LY] w ->
    literal odd (sign_text m ++ w) (Inf (negative m))
| lit_nan m w ds p : spelled odd [LN; LA; LN] w -> Forall is_digit ds -> payload_of (number ds) p ->
    literal odd (sign_text m ++ w ++ digits ds) (NaN false (negative m) p)
| lit_snan m w ds p : spelled odd [LS; LN; LA; LN] w -> Forall is_digit ds -> payload_of (number ds) p ->
    literal odd (sign_text m ++ w ++ digits ds) (NaN true (negative m) p).
(** white space around, underscores anywhere *)
Inductive stripped : list ch -> list ch -> Prop :=
| stripping a s b : Forall (fun c => c = Space) a -> Forall (fun c => c = Space) b -> hd Other s <> Space -> last s Other <> Space ->
    stripped (a ++ s ++ b) (filter (fun c => match c with Under => false | _ => true end) s).
Definition text_of (odd : bool) (s : list ch) (d : dec) : Prop := exists body, stripped s body /\ literal odd body d.

(** All characters that are digits have values from 0 to 9 *)
Definition proper (s : list ch) : Prop := Forall (fun c => match c with Dig d => is_digit d | _ => True end) s.
(** A NaN has a payload without leading zeros *)
Definition canonical (x : dec) : Prop :=
  match x with Fin _ i _ => coefficient i | Inf _ => True | NaN _ _ p => Forall is_digit p /\ hd 1 p <> 0 end.
