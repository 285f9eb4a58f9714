(** What the datetime documentation says of strftime: %f is the microsecond as six digits, %z is the
    UTC offset in the form +HHMM[SS[.ffffff]], empty for naive objects, %Z is the name of the time
    zone, empty for naive objects; everything else is the C library's. *)
From Coq Require Import ZArith List Bool.
From Verif Require Import Strftime_Model.
Import ListNotations.
Open Scope Z_scope.

(** [t] is the number [n] written with [w] digits *)
Definition value (t : text) : Z := fold_left (fun a c => 10 * a + (c - 48)) t 0.
Definition written (n : Z) (w : nat) (t : text) : Prop :=
  length t = w /\ (forall c, In c t -> 48 <= c <= 57) /\ value t = n.
Inductive offset_text (off : Z) : text -> Prop :=
| Offset : forall sign h m s u th tm ts tu,
    0 <= m < 60 -> 0 <= s < 60 -> 0 <= u < 1000000 ->
    Z.abs off = ((h * 60 + m) * 60 + s) * 1000000 + u ->
    sign = (if off <? 0 then 45 else 43) -> written h 2 th -> written m 2 tm ->
    (if (s =? 0) && (u =? 0) then ts = [] else written s 2 ts) ->
    (if u =? 0 then tu = [] else exists t, written u 6 t /\ tu = 46 :: t) ->
    offset_text off ([sign] ++ th ++ tm ++ ts ++ tu).
Inductive shown (letter : Z -> text) (o : stamp) : Z -> text -> Prop :=
| ShowF : forall t, written (match microsecond o with Some u => u | None => 0 end) 6 t -> shown letter o 102 t
| ShowZ : forall off t, utcoffset o = Some (Some off) -> offset_text off t -> shown letter o 122 t
| ShowNoZ : (utcoffset o = None \/ utcoffset o = Some None) -> shown letter o 122 []
| ShowName : forall s, tzname o = Some (Some s) -> shown letter o 90 s
| ShowNoName : (tzname o = None \/ tzname o = Some None) -> shown letter o 90 []
| ShowOther : forall c, c <> 102 -> c <> 122 -> c <> 90 -> shown letter o c (letter c).
Inductive formatted (letter : Z -> text) (at_end : text) (o : stamp) : text -> text -> Prop :=
| FNil : formatted letter at_end o [] []
| FPlain : forall c r t, c <> 37 -> formatted letter at_end o r t -> formatted letter at_end o (c :: r) (c :: t)
| FEnd : formatted letter at_end o [37] at_end
| FLetter : forall c r s t, shown letter o c s -> formatted letter at_end o r t ->
    formatted letter at_end o (37 :: c :: r) (s ++ t).
(** Objects as datetime makes them *)
Definition proper (o : stamp) : Prop :=
  (forall u, microsecond o = Some u -> 0 <= u < 1000000) /\
  (forall off, utcoffset o = Some (Some off) -> Z.abs off < 24 * 3600 * 1000000).
