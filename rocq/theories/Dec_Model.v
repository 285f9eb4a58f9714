(** Decimal numbers: crosshair/libimpl/decimallib.py, the stand-in for [decimal.Decimal] that takes
    symbolic parts.  A coefficient ([_int], a string of digits) is the list of its digit values. *)
From Coq Require Import ZArith List Bool.
Import ListNotations.
Open Scope Z_scope.

(** decimallib.py 97-102, 167-178: the public signals. *)
Inductive signal :=
| Clamped | DivisionByZero | Inexact | Overflow | Rounded | Underflow | InvalidOperation | Subnormal | FloatOperation.

(** decimallib.py 190-199: the rounding modes. *)
Inductive mode := DOWN | HALF_UP | HALF_EVEN | CEILING | FLOOR | UP | HALF_DOWN | UP05.

(** decimallib.py 230-236 and 3671-3686: a finite number (sign, digits, exponent), an infinity ("F"),
    a quiet ("n") or signaling ("N") NaN with its payload. *)
Inductive dec :=
| Fin (sign : bool) (int : list Z) (exp : Z)
| Inf (sign : bool)
| NaN (signaling : bool) (sign : bool) (payload : list Z).

(** decimallib.py 3694-3790, 3934-3940: a context.  [native] says that it is the interpreter's own
    context object, which is what [getcontext] (imported from [decimal], line 34) returns when no context is
    passed; otherwise it is the [Context] class of this file.  Capitals are left out (they only affect text). *)
Record ctx := Ctx { prec : Z; rounding : mode; Emin : Z; Emax : Z; clamp : bool; traps : signal -> bool; native : bool }.
Definition Etiny (c : ctx) : Z := Emin c - prec c + 1.
Definition Etop (c : ctx) : Z := Emax c - prec c + 1.

(** What a call does: it returns, raises a signal's exception, or raises another exception.
    The state is the flags of the context, newest first. *)
Inductive out (A : Type) := Ret (a : A) | Raise (s : signal) | AttrError | ValError | OverError.
Arguments Ret {A}. Arguments Raise {A}. Arguments AttrError {A}. Arguments ValError {A}. Arguments OverError {A}.
Notation flags := (list signal).
Definition M (A : Type) : Type := flags -> out A * flags.
Definition ret {A} (a : A) : M A := fun f => (Ret a, f).
Definition fail {A} (o : out A) : M A := fun f => (o, f).
Definition bind {A B} (m : M A) (k : A -> M B) : M B := fun f =>
  match m f with
  | (Ret a, f') => k a f'
  | (Raise s, f') => (Raise s, f') | (AttrError, f') => (AttrError, f')
  | (ValError, f') => (ValError, f') | (OverError, f') => (OverError, f')
  end.
Notation "'let*' x := a 'in' b" := (bind a (fun x => b)) (at level 200, x binder, a at level 100, b at level 200).

(** decimallib.py 198-220, _raise_error_in_ctx: set the flag, then raise if trapped, else the handler's value
    [v] (computed by the caller; conditions are already mapped to their signal by _condition_map 181-186). *)
Definition raise_in {A} (c : ctx) (s : signal) (v : A) : M A :=
  fun f => if traps c s then (Raise s, s :: f) else (Ret v, s :: f).
Definition sig (c : ctx) (s : signal) : M unit := raise_in c s tt.
Definition when (b : bool) (m : M unit) : M unit := if b then m else ret tt.

(** Texts of digits.  [int(s)], [str(n)] for n >= 0, [len(s)], ["0" * k] and [s or "0"]. *)
Definition to_int (s : list Z) : Z := fold_left (fun a d => a * 10 + d) s 0.
Fixpoint to_str_go (fuel : nat) (n : Z) : list Z :=
  match fuel with O => [] | S f => if n <? 10 then [n] else to_str_go f (n / 10) ++ [n mod 10] end.
Definition to_str (n : Z) : list Z := to_str_go (S (Z.to_nat (Z.log2 n))) n.
Definition len (s : list Z) : Z := Z.of_nat (length s).
Definition zeros (k : Z) : list Z := repeat 0 (Z.to_nat k).
Definition or0 (s : list Z) : list Z := match s with [] => [0] | _ => s end.
Definition upto (s : list Z) (k : Z) : list Z := firstn (Z.to_nat k) s.
Definition from (s : list Z) (k : Z) : list Z := skipn (Z.to_nat k) s.
Definition digit (s : list Z) (k : Z) : Z := nth (Z.to_nat k) s 0.

(** decimallib.py 551-557: [bool(x)]; a finite number is zero when its digits are "0". *)
Definition is0 (s : list Z) : bool := match s with [d] => d =? 0 | _ => false end.
Definition truth (x : dec) : bool := match x with Fin _ i _ => negb (is0 i) | _ => true end.
(** decimallib.py 458-486. *)
Definition isnan (x : dec) : Z := match x with NaN false _ _ => 1 | NaN true _ _ => 2 | _ => 0 end.
Definition isinfinity (x : dec) : Z := match x with Inf true => -1 | Inf false => 1 | _ => 0 end.
Definition sign_of (x : dec) : bool := match x with Fin s _ _ => s | Inf s => s | NaN _ s _ => s end.
(** decimallib.py 2724-2730: adjusted, 0 for a special value. *)
Definition adjusted (x : dec) : Z := match x with Fin _ i e => e + len i - 1 | _ => 0 end.
(** decimallib.py 2839-2853: copy_abs, copy_negate, copy_sign. *)
Definition with_sign (s : bool) (x : dec) : dec :=
  match x with Fin _ i e => Fin s i e | Inf _ => Inf s | NaN g _ p => NaN g s p end.
Definition copy_abs (x : dec) : dec := with_sign false x.
Definition copy_negate (x : dec) : dec := with_sign (negb (sign_of x)) x.

(** decimallib.py 1413-1425: _fix_nan; lstrip("0") of the kept payload. *)
Fixpoint lstrip0 (s : list Z) : list Z := match s with d :: r => if d =? 0 then lstrip0 r else s | [] => [] end.
Definition fix_nan (c : ctx) (g s : bool) (p : list Z) : dec :=
  let m := prec c - (if clamp c then 1 else 0) in
  if len p >? m then NaN g s (lstrip0 (from p (len p - m))) else NaN g s p.
(** decimallib.py 109-113: the value of an untrapped InvalidOperation on a NaN: the same NaN made quiet. *)
Definition quiet (c : ctx) (x : dec) : dec := match x with NaN _ s p => fix_nan c false s p | _ => x end.

(** decimallib.py 488-516: _check_nans; [None] is the value 0 (no NaN). *)
Definition check_nans (c : ctx) (x : dec) (y : option dec) : M (option dec) :=
  let sn := isnan x in
  let on := match y with None => 0 | Some y => isnan y end in
  if negb (sn =? 0) || negb (on =? 0) then
    if sn =? 2 then let* r := raise_in c InvalidOperation (quiet c x) in ret (Some r)
    else if on =? 2 then match y with Some y => let* r := raise_in c InvalidOperation (quiet c y) in ret (Some r) | None => ret None end
    else if negb (sn =? 0) then ret (Some (quiet c x))
    else match y with Some y => ret (Some (quiet c y)) | None => ret None end
  else ret None.
(** decimallib.py 518-549: _compare_check_nans. *)
Definition compare_check_nans (c : ctx) (x y : dec) : M (option dec) :=
  if isnan x =? 2 then let* r := raise_in c InvalidOperation (quiet c x) in ret (Some r)
  else if isnan y =? 2 then let* r := raise_in c InvalidOperation (quiet c y) in ret (Some r)
  else if isnan x =? 1 then let* r := raise_in c InvalidOperation (quiet c x) in ret (Some r)
  else if isnan y =? 1 then let* r := raise_in c InvalidOperation (quiet c y) in ret (Some r)
  else ret None.

(** decimallib.py 4841-4842: the two regular expressions, matched from a position to the end. *)
Definition all_zeros (s : list Z) (k : Z) : bool := forallb (Z.eqb 0) (from s k).
Definition exact_half (s : list Z) (k : Z) : bool :=
  match from s k with d :: r => (d =? 5) && forallb (Z.eqb 0) r | [] => false end.

(** decimallib.py 1527-1593: the rounding functions: 1 to round away from zero, 0 exact, -1 to truncate. *)
Definition round_down (s : list Z) (k : Z) : Z := if all_zeros s k then 0 else -1.
Definition round_up (s : list Z) (k : Z) : Z := - round_down s k.
Definition round_half_up (s : list Z) (k : Z) : Z :=
  if 5 <=? digit s k then 1 else if all_zeros s k then 0 else -1.
Definition round_half_down (s : list Z) (k : Z) : Z := if exact_half s k then -1 else round_half_up s k.
Definition round_half_even (s : list Z) (k : Z) : Z :=
  if exact_half s k && ((k =? 0) || Z.even (digit s (k - 1))) then -1 else round_half_up s k.
Definition round_ceiling (neg : bool) (s : list Z) (k : Z) : Z := if neg then round_down s k else - round_down s k.
Definition round_floor (neg : bool) (s : list Z) (k : Z) : Z := if negb neg then round_down s k else - round_down s k.
Definition round_05up (s : list Z) (k : Z) : Z :=
  if negb (k =? 0) && negb ((digit s (k - 1) =? 0) || (digit s (k - 1) =? 5)) then round_down s k else - round_down s k.
Definition pick (m : mode) (neg : bool) (s : list Z) (k : Z) : Z :=
  match m with
  | DOWN => round_down s k | UP => round_up s k | HALF_UP => round_half_up s k | HALF_DOWN => round_half_down s k
  | HALF_EVEN => round_half_even s k | CEILING => round_ceiling neg s k | FLOOR => round_floor neg s k | UP05 => round_05up s k
  end.

(** decimallib.py 136-151: the value of an untrapped Overflow. *)
Definition largest (c : ctx) (s : bool) : dec := Fin s (repeat 9 (Z.to_nat (prec c))) (Emax c - prec c + 1).
Definition handle_overflow (c : ctx) (s : bool) : dec :=
  match rounding c with
  | HALF_UP | HALF_EVEN | HALF_DOWN | UP => Inf s
  | m => if s then match m with FLOOR => Inf s | _ => largest c s end
         else match m with CEILING => Inf s | _ => largest c s end
  end.

(** decimallib.py 1427-1517: _fix. *)
Definition fix_ (c : ctx) (x : dec) : M dec :=
  match x with
  | NaN g s p => ret (fix_nan c g s p)
  | Inf s => ret (Inf s)
  | Fin s i e =>
    if is0 i then
      let new_exp := Z.min (Z.max e (Etiny c)) (if clamp c then Etop c else Emax c) in
      if negb (new_exp =? e) then let* _ := sig c Clamped in ret (Fin s [0] new_exp) else ret x
    else
    let exp_min := len i + e - prec c in
    if exp_min >? Etop c then
      let* ans := raise_in c Overflow (handle_overflow c s) in
      let* _ := sig c Inexact in
      let* _ := sig c Rounded in
      ret ans
    else
    let subnormal := exp_min <? Etiny c in
    let exp_min := if subnormal then Etiny c else exp_min in
    if e <? exp_min then
      let digits := len i + e - exp_min in
      let i1 := if digits <? 0 then [1] else i in
      let digits := if digits <? 0 then 0 else digits in
      let changed := pick (rounding c) s i1 digits in
      let coeff := or0 (upto i1 digits) in
      let '(coeff, exp_min) :=
        if changed >? 0 then
          let coeff := to_str (to_int coeff + 1) in
          if len coeff >? prec c then (removelast coeff, exp_min + 1) else (coeff, exp_min)
        else (coeff, exp_min) in
      let* ans := (if exp_min >? Etop c then raise_in c Overflow (handle_overflow c s) else ret (Fin s coeff exp_min)) in
      let* _ := when (negb (changed =? 0) && subnormal) (sig c Underflow) in
      let* _ := when subnormal (sig c Subnormal) in
      let* _ := when (negb (changed =? 0)) (sig c Inexact) in
      let* _ := sig c Rounded in
      let* _ := when (negb (truth ans)) (sig c Clamped) in
      ret ans
    else
    let* _ := when subnormal (sig c Subnormal) in
    if clamp c && (e >? Etop c) then
      let* _ := sig c Clamped in ret (Fin s (i ++ zeros (e - Etop c)) (Etop c))
    else ret x
  end.

(** decimallib.py 2423-2457: _rescale. *)
Definition rescale (x : dec) (exp : Z) (m : mode) : dec :=
  match x with
  | Fin s i e =>
    if is0 i then Fin s [0] exp
    else if e >=? exp then Fin s (i ++ zeros (e - exp)) exp
    else
      let digits := len i + e - exp in
      let i1 := if digits <? 0 then [1] else i in
      let digits := if digits <? 0 then 0 else digits in
      let changed := pick m s i1 digits in
      let coeff := or0 (upto i1 digits) in
      Fin s (if changed =? 1 then to_str (to_int coeff + 1) else coeff) exp
  | _ => x
  end.

(** decimallib.py 838-903: unary minus, plus, abs. *)
Definition after_nans (c : ctx) (x : dec) (y : option dec) (k : M dec) : M dec :=
  let* a := check_nans c x y in match a with Some r => ret r | None => k end.
Definition is_floor (c : ctx) : bool := match rounding c with FLOOR => true | _ => false end.
Definition neg (c : ctx) (x : dec) : M dec :=
  after_nans c x None (fix_ c (if negb (truth x) && negb (is_floor c) then copy_abs x else copy_negate x)).
Definition pos (c : ctx) (x : dec) : M dec :=
  after_nans c x None (fix_ c (if negb (truth x) && negb (is_floor c) then copy_abs x else x)).
Definition abs_ (c : ctx) (x : dec) : M dec :=
  after_nans c x None (if sign_of x then neg c x else pos c x).

(** decimallib.py 4308-4338: _normalize, on the working triples' integers and exponents; the result is the two
    integers, in the order of the arguments, and their common exponent. *)
Definition normalize2 (i1 e1 i2 e2 prec : Z) : Z * Z * Z :=
  let swap := e1 <? e2 in
  let '(ti, te) := if swap then (i2, e2) else (i1, e1) in
  let '(oi, oe) := if swap then (i1, e1) else (i2, e2) in
  let exp := te + Z.min (-1) (len (to_str ti) - prec - 2) in
  let '(oi, oe) := if len (to_str oi) + oe - 1 <? exp then (1, exp) else (oi, oe) in
  let ti := ti * 10 ^ (te - oe) in
  if swap then (oi, ti, oe) else (ti, oi, oe).

(** decimallib.py 906-991: addition (operands already converted to this class; so for all that follows). *)
Definition add (c : ctx) (x y : dec) : M dec :=
  after_nans c x (Some y)
  (match x, y with
   | Inf s, Inf t => if Bool.eqb s t then ret x else raise_in c InvalidOperation (NaN false false [])
   | Inf _, _ => ret x
   | _, Inf _ => ret y
   | Fin s1 i1 e1, Fin s2 i2 e2 =>
     let exp := Z.min e1 e2 in
     let negativezero := is_floor c && negb (Bool.eqb s1 s2) in
     if is0 i1 && is0 i2 then fix_ c (Fin (if negativezero then true else s1 && s2) [0] exp)
     else if is0 i1 then fix_ c (rescale y (Z.max exp (e2 - prec c - 1)) (rounding c))
     else if is0 i2 then fix_ c (rescale x (Z.max exp (e1 - prec c - 1)) (rounding c))
     else
       let '(n1, n2, e) := normalize2 (to_int i1) e1 (to_int i2) e2 (prec c) in
       if negb (Bool.eqb s1 s2) then
         if n1 =? n2 then fix_ c (Fin negativezero [0] exp)
         else if n1 <? n2 then fix_ c (Fin s2 (to_str (n2 - n1)) e)
         else fix_ c (Fin s1 (to_str (n1 - n2)) e)
       else fix_ c (Fin s1 (to_str (n1 + n2)) e)
   | _, _ => ret x
   end).
(** decimallib.py 995-1008: subtraction. *)
Definition sub (c : ctx) (x y : dec) : M dec := after_nans c x (Some y) (add c x (copy_negate y)).

(** decimallib.py 1017-1072: multiplication. *)
Definition is1 (s : list Z) : bool := match s with [d] => d =? 1 | _ => false end.
Definition mul (c : ctx) (x y : dec) : M dec :=
  let s := xorb (sign_of x) (sign_of y) in
  after_nans c x (Some y)
  (match x, y with
   | Inf _, _ => if truth y then ret (Inf s) else raise_in c InvalidOperation (NaN false false [])
   | _, Inf _ => if truth x then ret (Inf s) else raise_in c InvalidOperation (NaN false false [])
   | Fin _ i1 e1, Fin _ i2 e2 =>
     let e := e1 + e2 in
     if is0 i1 || is0 i2 then fix_ c (Fin s [0] e)
     else if is1 i1 then fix_ c (Fin s i2 e)
     else if is1 i2 then fix_ c (Fin s i1 e)
     else fix_ c (Fin s (to_str (to_int i1 * to_int i2)) e)
   | _, _ => ret x
   end).

(** decimallib.py 1690-1735: fused multiply-add. *)
Definition fma (c : ctx) (x y z : dec) : M dec :=
  let s := xorb (sign_of x) (sign_of y) in
  match x, y with
  | NaN true _ _, _ => raise_in c InvalidOperation (quiet c x)
  | _, NaN true _ _ => raise_in c InvalidOperation (quiet c y)
  | NaN false _ _, _ => add c x z
  | _, NaN false _ _ => add c y z
  | Inf _, _ => if truth y then add c (Inf s) z else raise_in c InvalidOperation (NaN false false [])
  | _, Inf _ => if truth x then add c (Inf s) z else raise_in c InvalidOperation (NaN false false [])
  | Fin _ i1 e1, Fin _ i2 e2 => add c (Fin s (to_str (to_int i1 * to_int i2)) (e1 + e2)) z
  end.

(** decimallib.py 1121-1127: the loop of an exact quotient towards the ideal exponent. *)
Fixpoint strip_exact (fuel : nat) (coeff exp ideal : Z) : Z * Z :=
  match fuel with
  | O => (coeff, exp)
  | S f => if (exp <? ideal) && (coeff mod 10 =? 0) then strip_exact f (coeff / 10) (exp + 1) ideal else (coeff, exp)
  end.
(** decimallib.py 1076-1133: division. *)
Definition truediv (c : ctx) (x y : dec) : M dec :=
  let s := xorb (sign_of x) (sign_of y) in
  after_nans c x (Some y)
  (match x, y with
   | Inf _, Inf _ => raise_in c InvalidOperation (NaN false false [])
   | Inf _, _ => ret (Inf s)
   | _, Inf _ => let* _ := sig c Clamped in ret (Fin s [0] (Etiny c))
   | Fin _ i1 e1, Fin _ i2 e2 =>
     if is0 i2 then
       if is0 i1 then raise_in c InvalidOperation (NaN false false [])
       else raise_in c DivisionByZero (Inf s)
     else if is0 i1 then fix_ c (Fin s [0] (e1 - e2))
     else
       let shift := len i2 - len i1 + prec c + 1 in
       let exp := e1 - e2 - shift in
       let '(n, d) := if shift >=? 0 then (to_int i1 * 10 ^ shift, to_int i2) else (to_int i1, to_int i2 * 10 ^ (- shift)) in
       let coeff := n / d in
       let remainder := n mod d in
       let '(coeff, exp) :=
         if negb (remainder =? 0) then (if coeff mod 5 =? 0 then coeff + 1 else coeff, exp)
         else strip_exact (Z.to_nat (e1 - e2 - exp)) coeff exp (e1 - e2) in
       fix_ c (Fin s (to_str coeff) exp)
   | _, _ => ret x
   end).

(** decimallib.py 1135-1170: _divide, for a finite first operand and a nonzero second one. *)
Definition divide (c : ctx) (x y : dec) : M (dec * dec) :=
  let s := xorb (sign_of x) (sign_of y) in
  match x with
  | Fin s1 i1 e1 =>
    let ideal := match y with Fin _ _ e2 => Z.min e1 e2 | _ => e1 end in
    let expdiff := adjusted x - adjusted y in
    let impossible := let* a := raise_in c InvalidOperation (NaN false false []) in ret (a, a) in
    match y with
    | Fin _ i2 e2 =>
      if is0 i1 || (expdiff <=? -2) then ret (Fin s [0] 0, rescale x ideal (rounding c))
      else if expdiff <=? prec c then
        let '(n, d) := if e1 >=? e2 then (to_int i1 * 10 ^ (e1 - e2), to_int i2) else (to_int i1, to_int i2 * 10 ^ (e2 - e1)) in
        if n / d <? 10 ^ prec c then ret (Fin s (to_str (n / d)) 0, Fin s1 (to_str (n mod d)) ideal)
        else impossible
      else impossible
    | _ => ret (Fin s [0] 0, rescale x ideal (rounding c))
    end
  | _ => ret (x, x)
  end.
(** decimallib.py 1181-1216: divmod. *)
Definition divmod (c : ctx) (x y : dec) : M (dec * dec) :=
  let s := xorb (sign_of x) (sign_of y) in
  let nan := NaN false false [] in
  let* a := check_nans c x (Some y) in
  match a with
  | Some r => ret (r, r)
  | None =>
    match x, y with
    | Inf _, Inf _ => let* r := raise_in c InvalidOperation nan in ret (r, r)
    | Inf _, _ => let* r := raise_in c InvalidOperation nan in ret (Inf s, r)
    | _, _ =>
      if negb (truth y) then
        if negb (truth x) then let* r := raise_in c InvalidOperation nan in ret (r, r)
        else let* q := raise_in c DivisionByZero (Inf s) in let* r := raise_in c InvalidOperation nan in ret (q, r)
      else
        let* qr := divide c x y in
        let* r := fix_ c (snd qr) in ret (fst qr, r)
    end
  end.
(** decimallib.py 1228-1253: remainder. *)
Definition mod_ (c : ctx) (x y : dec) : M dec :=
  after_nans c x (Some y)
  (match x with
   | Inf _ => raise_in c InvalidOperation (NaN false false [])
   | _ => if negb (truth y) then raise_in c InvalidOperation (NaN false false [])
          else let* qr := divide c x y in fix_ c (snd qr)
   end).
(** decimallib.py 1340-1367: floor division. *)
Definition floordiv (c : ctx) (x y : dec) : M dec :=
  let s := xorb (sign_of x) (sign_of y) in
  after_nans c x (Some y)
  (match x, y with
   | Inf _, Inf _ => raise_in c InvalidOperation (NaN false false [])
   | Inf _, _ => ret (Inf s)
   | _, _ =>
     if negb (truth y) then
       if truth x then raise_in c DivisionByZero (Inf s) else raise_in c InvalidOperation (NaN false false [])
     else let* qr := divide c x y in ret (fst qr)
   end).
(** decimallib.py 1262-1338: remainder_near. *)
Definition remainder_near (c : ctx) (x y : dec) : M dec :=
  let nan := NaN false false [] in
  after_nans c x (Some y)
  (match x, y with
   | Inf _, _ => raise_in c InvalidOperation nan
   | _, Inf _ => fix_ c x
   | Fin s1 i1 e1, Fin _ i2 e2 =>
     if is0 i2 then raise_in c InvalidOperation nan
     else
     let ideal := Z.min e1 e2 in
     if is0 i1 then fix_ c (Fin s1 [0] ideal)
     else
     let expdiff := adjusted x - adjusted y in
     if expdiff >=? prec c + 1 then raise_in c InvalidOperation nan
     else if expdiff <=? -2 then fix_ c (rescale x ideal (rounding c))
     else
     let '(n, d) := if e1 >=? e2 then (to_int i1 * 10 ^ (e1 - e2), to_int i2) else (to_int i1, to_int i2 * 10 ^ (e2 - e1)) in
     let q := n / d in
     let r := n mod d in
     let '(q, r) := if 2 * r + (q mod 2) >? d then (q + 1, r - d) else (q, r) in
     if q >=? 10 ^ prec c then raise_in c InvalidOperation nan
     else
     let '(s, r) := if r <? 0 then (negb s1, - r) else (s1, r) in
     fix_ c (Fin s (to_str r) ideal)
   | _, _ => ret x
   end).

(** decimallib.py 559-606: _cmp, for operands that are not NaN.  Texts of digits compare as Python compares
    strings: the first difference decides, a proper prefix is smaller. *)
Fixpoint str_lt (a b : list Z) : bool :=
  match a, b with
  | _, [] => false
  | [], _ :: _ => true
  | x :: a', y :: b' => if x <? y then true else if y <? x then false else str_lt a' b'
  end.
Fixpoint str_eq (a b : list Z) : bool :=
  match a, b with
  | [], [] => true
  | x :: a', y :: b' => (x =? y) && str_eq a' b'
  | _, _ => false
  end.
Definition pm (s : bool) : Z := if s then -1 else 1.
Definition cmp (x y : dec) : Z :=
  match x, y with
  | Fin s1 i1 e1, Fin s2 i2 e2 =>
    if is0 i1 then (if is0 i2 then 0 else - pm s2)
    else if is0 i2 then pm s1
    else if s1 && negb s2 then -1
    else if negb s1 && s2 then 1
    else
      let a1 := e1 + len i1 - 1 in
      let a2 := e2 + len i2 - 1 in
      if a1 =? a2 then
        let p1 := i1 ++ zeros (e1 - e2) in
        let p2 := i2 ++ zeros (e2 - e1) in
        if str_eq p1 p2 then 0 else if str_lt p1 p2 then - pm s1 else pm s1
      else if a1 >? a2 then pm s1
      else - pm s1
  | _, _ =>
    let a := isinfinity x in
    let b := isinfinity y in
    if a =? b then 0 else if a <? b then -1 else 1
  end.
(** decimallib.py 624-668: the comparisons between two decimals. *)
Definition eq (c : ctx) (x y : dec) : M bool :=
  let* a := check_nans c x (Some y) in match a with Some _ => ret false | None => ret (cmp x y =? 0) end.
Definition ordering (f : Z -> bool) (c : ctx) (x y : dec) : M bool :=
  let* a := compare_check_nans c x y in match a with Some _ => ret false | None => ret (f (cmp x y)) end.
Definition lt : ctx -> dec -> dec -> M bool := ordering (fun k => k <? 0).
Definition le : ctx -> dec -> dec -> M bool := ordering (fun k => k <=? 0).
Definition gt : ctx -> dec -> dec -> M bool := ordering (fun k => k >? 0).
Definition ge : ctx -> dec -> dec -> M bool := ordering (fun k => k >=? 0).

(** decimallib.py 2754-2824: compare_total, as -1, 0 or 1; [self < other] and [self > other] there run with
    the current context, but on operands that are not NaN, so it is not consulted. *)
Definition compare_total (x y : dec) : Z :=
  let s := sign_of x in
  if s && negb (sign_of y) then -1
  else if negb s && sign_of y then 1
  else
  match x, y with
  | NaN g1 _ p1, NaN g2 _ p2 =>
    if Bool.eqb g1 g2 then
      let below := (len p1 <? len p2) || ((len p1 =? len p2) && str_lt p1 p2) in
      let above := (len p2 <? len p1) || ((len p2 =? len p1) && str_lt p2 p1) in
      if below then (if s then 1 else -1) else if above then (if s then -1 else 1) else 0
    else if s then (if g1 then 1 else -1) else (if g1 then -1 else 1)
  | NaN _ _ _, _ => if s then -1 else 1
  | _, NaN _ _ _ => if s then 1 else -1
  | _, _ =>
    if cmp x y <? 0 then -1 else if cmp x y >? 0 then 1
    else match x, y with
         | Fin _ _ e1, Fin _ _ e2 => if e1 <? e2 then (if s then 1 else -1) else if e1 >? e2 then (if s then -1 else 1) else 0
         | _, _ => 0
         end
  end.
(** decimallib.py 2631-2706: max and min. *)
Definition max_ (c : ctx) (x y : dec) : M dec :=
  let sn := isnan x in let on := isnan y in
  if negb (sn =? 0) || negb (on =? 0) then
    if (on =? 1) && (sn =? 0) then fix_ c x
    else if (sn =? 1) && (on =? 0) then fix_ c y
    else after_nans c x (Some y) (ret x)
  else
    let k := cmp x y in
    let k := if k =? 0 then compare_total x y else k in
    fix_ c (if k =? -1 then y else x).
Definition min_ (c : ctx) (x y : dec) : M dec :=
  let sn := isnan x in let on := isnan y in
  if negb (sn =? 0) || negb (on =? 0) then
    if (on =? 1) && (sn =? 0) then fix_ c x
    else if (sn =? 1) && (on =? 0) then fix_ c y
    else after_nans c x (Some y) (ret x)
  else
    let k := cmp x y in
    let k := if k =? 0 then compare_total x y else k in
    fix_ c (if k =? -1 then x else y).

(** decimallib.py 1386-1398: int(x). *)
Definition to_integer (x : dec) : out Z :=
  match x with
  | NaN _ _ _ => ValError
  | Inf _ => OverError
  | Fin s i e =>
    if e >=? 0 then Ret (pm s * to_int i * 10 ^ e)
    else Ret (pm s * to_int (or0 (firstn (length i - Z.to_nat (- e)) i)))
  end.
(** decimallib.py 1644-1688: round(x), floor and ceil. *)
Definition to_integer_by (m : mode) (x : dec) : out Z :=
  match x with NaN _ _ _ => ValError | Inf _ => OverError | _ => to_integer (rescale x 0 m) end.
Definition round1 : dec -> out Z := to_integer_by HALF_EVEN.
Definition floor : dec -> out Z := to_integer_by FLOOR.
Definition ceil : dec -> out Z := to_integer_by CEILING.

(** decimallib.py 2328-2403: quantize; [m] is the rounding argument or the context's mode. *)
Definition quantize (c : ctx) (m : mode) (x y : dec) : M dec :=
  let invalid := raise_in c InvalidOperation (NaN false false []) in
  after_nans c x (Some y)
  (match x, y with
   | Inf _, Inf _ => ret x
   | Inf _, _ | _, Inf _ => invalid
   | Fin s i e, Fin _ _ exp =>
     if negb ((Etiny c <=? exp) && (exp <=? Emax c)) then invalid
     else if is0 i then fix_ c (Fin s [0] exp)
     else if adjusted x >? Emax c then invalid
     else if adjusted x - exp + 1 >? prec c then invalid
     else
     let ans := rescale x exp m in
     let digits := match ans with Fin _ a _ => len a | _ => 0 end in
     if adjusted ans >? Emax c then invalid
     else if digits >? prec c then invalid
     else
     let* _ := when (truth ans && (adjusted ans <? Emin c)) (sig c Subnormal) in
     let* _ := when (exp >? e) (let* _ := when (negb (cmp ans x =? 0)) (sig c Inexact) in sig c Rounded) in
     fix_ c ans
   | _, _ => ret x
   end).
(** decimallib.py 1636-1642: round(x, n). *)
Definition round2 (c : ctx) (x : dec) (n : Z) : M dec := quantize c (rounding c) x (Fin false [1] (- n)).

(** decimallib.py 2483-2530: to_integral_exact and to_integral_value. *)
Definition to_integral_exact (c : ctx) (m : mode) (x : dec) : M dec :=
  match x with
  | Fin s i e =>
    if e >=? 0 then ret x
    else if is0 i then ret (Fin s [0] 0)
    else
      let ans := rescale x 0 m in
      let* _ := when (negb (cmp ans x =? 0)) (sig c Inexact) in
      let* _ := sig c Rounded in
      ret ans
  | _ => after_nans c x None (ret x)
  end.
Definition to_integral_value (c : ctx) (m : mode) (x : dec) : M dec :=
  match x with
  | Fin _ _ e => if e >=? 0 then ret x else ret (rescale x 0 m)
  | _ => after_nans c x None (ret x)
  end.

(** decimallib.py 2304-2326: normalize; the loop drops trailing zeros while the exponent is below its bound. *)
Fixpoint drop0 (fuel : nat) (s : list Z) (exp bound : Z) : list Z * Z :=
  match fuel with
  | O => (s, exp)
  | S f => if (last s 1 =? 0) && (exp <? bound) then drop0 f (removelast s) (exp + 1) bound else (s, exp)
  end.
Definition normalize (c : ctx) (x : dec) : M dec :=
  after_nans c x None
  (let* dup := fix_ c x in
   match dup with
   | Fin s i e =>
     if is0 i then ret (Fin s [0] 0)
     else let '(i', e') := drop0 (length i) i e (if clamp c then Etop c else Emax c) in ret (Fin s i' e')
   | _ => ret dup
   end).

(** decimallib.py 2593-2602: Newton's iteration of the square root. *)
Fixpoint newton (fuel : nat) (c n : Z) : Z :=
  match fuel with
  | O => n
  | S f => let q := c / n in if n <=? q then n else newton f c ((n + q) / 2)
  end.
(** decimallib.py 2532-2629: sqrt.  [context._shallow_copy()] at 2624 exists only on this file's contexts. *)
Definition sqrt (c : ctx) (x : dec) : M dec :=
  after_nans c x None
  (match x with
   | Inf false => ret x
   | Inf true => raise_in c InvalidOperation (NaN false false [])
   | NaN _ _ _ => ret x
   | Fin s i e =>
     if is0 i then fix_ c (Fin s [0] (e / 2))
     else if s then raise_in c InvalidOperation (NaN false false [])
     else
     let p := prec c + 1 in
     let e2 := e / 2 in
     let '(v, d) := if negb (e mod 2 =? 0) then (to_int i * 10, len i / 2 + 1) else (to_int i, (len i + 1) / 2) in
     let shift := p - d in
     let '(v, exact) := if shift >=? 0 then (v * 100 ^ shift, true) else (v / 100 ^ (- shift), v mod 100 ^ (- shift) =? 0) in
     let e3 := e2 - shift in
     let n := newton (S (S (Z.to_nat (Z.log2 (10 ^ p))))) v (10 ^ p) in
     let exact := exact && (n * n =? v) in
     let '(n, e4) :=
       if exact then (if shift >=? 0 then n / 10 ^ shift else n * 10 ^ (- shift), e3 + shift)
       else (if n mod 5 =? 0 then n + 1 else n, e3) in
     if native c then fail AttrError
     else fix_ (Ctx (prec c) HALF_EVEN (Emin c) (Emax c) (clamp c) (traps c) (native c)) (Fin false (to_str n) e4)
   end).

(** decimallib.py 3320-3362: next_minus and next_plus.  [_set_rounding] and [_ignore_all_flags] exist only on this
    file's contexts; there, the flags to ignore are recorded but _raise_error_in_ctx never consults them.  The
    signals go to a copy of the context, so the flags seen by the caller are unchanged.  The comparison
    [new_self != self] compares finite numbers or an infinity, which involves no context. *)
Definition on_copy {A} (m : M A) : M A := fun f => (fst (m f), f).
Definition with_rounding (c : ctx) (m : mode) : ctx := Ctx (prec c) m (Emin c) (Emax c) (clamp c) (traps c) (native c).
Definition next_by (m : mode) (k : ctx -> dec -> dec -> M dec) (c : ctx) (x : dec) : M dec :=
  if native c then fail AttrError
  else on_copy (let c' := with_rounding c m in
                let* new := fix_ c' x in
                if negb (cmp new x =? 0) then ret new else k c' x (Fin false [1] (Etiny c' - 1))).
Definition next_minus (c : ctx) (x : dec) : M dec :=
  after_nans c x None
  (match x with
   | Inf true => ret x
   | Inf false => ret (Fin false (repeat 9 (Z.to_nat (prec c))) (Etop c))
   | _ => next_by FLOOR sub c x
   end).
Definition next_plus (c : ctx) (x : dec) : M dec :=
  after_nans c x None
  (match x with
   | Inf false => ret x
   | Inf true => ret (Fin true (repeat 9 (Z.to_nat (prec c))) (Etop c))
   | _ => next_by CEILING add c x
   end).
