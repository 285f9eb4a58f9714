(** Model of crosshair/options.py and crosshair/codeconfig.py *)
From Coq Require Import ZArith List Bool Ascii String.
Close Scope string_scope.
From Verif Require Import Py Str_Model.
Import ListNotations.
Open Scope Z_scope.

(** options.py 61-75: the fields of AnalysisOptionSet *)
Inductive field := analysis_kind | enabled | specs_complete | per_condition_timeout | per_path_timeout
  | max_iterations | report_all | report_verbose | unblock | timeout | max_uninteresting_iterations | stats.
Definition field_eqb (a b : field) : bool :=
  match a, b with
  | analysis_kind, analysis_kind | enabled, enabled | specs_complete, specs_complete
  | per_condition_timeout, per_condition_timeout | per_path_timeout, per_path_timeout
  | max_iterations, max_iterations | report_all, report_all | report_verbose, report_verbose
  | unblock, unblock | timeout, timeout | max_uninteresting_iterations, max_uninteresting_iterations
  | stats, stats => true
  | _, _ => false
  end.
(** 78-88 directive_fields *)
Definition directive_fields : list field :=
  [enabled; analysis_kind; specs_complete; max_iterations; per_condition_timeout; per_path_timeout; max_uninteresting_iterations].

(** the Python names of the fields *)
Fixpoint of_string (s : string) : str := match s with EmptyString => [] | String c r => Z.of_nat (nat_of_ascii c) :: of_string r end.
Definition field_name (f : field) : str :=
  of_string match f with
  | analysis_kind => "analysis_kind" | enabled => "enabled" | specs_complete => "specs_complete"
  | per_condition_timeout => "per_condition_timeout" | per_path_timeout => "per_path_timeout"
  | max_iterations => "max_iterations" | report_all => "report_all" | report_verbose => "report_verbose"
  | unblock => "unblock" | timeout => "timeout" | max_uninteresting_iterations => "max_uninteresting_iterations"
  | stats => "stats" end%string.
(** str.isspace / regular expression \s *)
Definition py_ws (c : Z) : bool :=
  ((9 <=? c) && (c <=? 13)) || ((28 <=? c) && (c <=? 32)) || (c =? 133) || (c =? 160) || (c =? 5760) ||
  ((8192 <=? c) && (c <=? 8202)) || (c =? 8232) || (c =? 8233) || (c =? 8239) || (c =? 8287) || (c =? 12288).

Section Values.
(** Python values of options *)
Variable V : Type.
(** AnalysisOptionSet: None is an option left open; AnalysisOptions has every field *)
Definition option_set := field -> option V.
Definition options := field -> V.
Definition empty : option_set := fun _ => None.
Definition single (f : field) (v : V) : option_set := fun g => if field_eqb f g then Some v else None.
(** 90-92 AnalysisOptionSet.overlay *)
Definition overlay (base over : option_set) : option_set :=
  fun f => match over f with Some v => Some v | None => base f end.
(** 179-188 AnalysisOptions.overlay *)
Definition overlay_full (base : options) (over : option_set) : options :=
  fun f => match over f with Some v => v | None => base f end.
(** 116-133 option_set_from_dict: only these names are taken from the command line *)
Definition cmdline_fields : list field :=
  [analysis_kind; specs_complete; per_path_timeout; per_condition_timeout; max_uninteresting_iterations; report_all; report_verbose; unblock].
Definition option_set_from_dict (source : option_set) : option_set :=
  fold_left (fun o f => match source f with Some v => overlay o (single f v) | None => o end) cmdline_fields empty.

(** codeconfig.py 44: regular expression \s and str.strip's notion of white space *)
Variable ws : Z -> bool.
Definition eq_ch : Z := 61.
Fixpoint skip_ws (s : str) : str := match s with c :: r => if ws c then skip_ws r else s | [] => [] end.
(** the maximal run of characters that are not white space, and the rest *)
Fixpoint run (s : str) : str * str :=
  match s with
  | c :: r => if ws c then ([], s) else let '(a, b) := run r in (c :: a, b)
  | [] => ([], [])
  end.
(** the white space at the front *)
Fixpoint ws_run (s : str) : str * str :=
  match s with c :: r => if ws c then let '(a, b) := ws_run r in (c :: a, b) else ([], s) | [] => ([], []) end.
Definition last_is_eq (s : str) : bool := match rev s with c :: _ => c =? eq_ch | [] => false end.
(** One match of [(?:\S+\s*\=\s*\S+)|(?:\S+)] at a character that is not white space.
    The regular expression engine tries the whole run first (case A), then shorter
    prefixes: the run's last [=], which needs a run after it when it ends this one
    (case B); every other way to match, by either alternative, takes just the run. *)
Definition match1 (s : str) : str * str :=
  let '(r, t) := run s in
  let '(w1, t1) := ws_run t in
  match t1 with
  | c :: t2 =>
    let '(w2, t3) := ws_run t2 in
    if (c =? eq_ch) && (0 <? slen t3) then                               (* A *)
      let '(v, rest) := run t3 in (r ++ w1 ++ [c] ++ w2 ++ v, rest)
    else if last_is_eq r && (1 <? slen r) then                           (* B *)
      let '(v, rest) := run t1 in (r ++ w1 ++ v, rest)
    else (r, t)
  | [] => (r, t)
  end.
(** re.findall *)
Fixpoint findall (fuel : nat) (s : str) : res (list str) :=
  match fuel with
  | O => Err OutOfFuel
  | S fuel =>
    match skip_ws s with
    | [] => Ok []
    | s' => let '(p, rest) := match1 s' in do ps <- findall fuel rest; Ok (p :: ps)
    end
  end.
(** str.split("=", 2) *)
Fixpoint split_at_eq (n : nat) (s : str) : list str :=
  match n with
  | O => [s]
  | S n =>
    (fix go (acc s : str) : list str :=
       match s with
       | [] => [rev acc]
       | c :: r => if c =? eq_ch then rev acc :: split_at_eq n r else go (c :: acc) r
       end) [] s
  end.
Definition strip (s : str) : str := rev (skip_ws (rev (skip_ws s))).
Fixpoint str_eqb (a b : str) : bool :=
  match a, b with x :: a, y :: b => (x =? y) && str_eqb a b | [], [] => true | _, _ => false end.

(** the name of each field, and parse_field (options.py 105-114), None when the value is
    not valid *)
Variable name : field -> str.
Variable parse_field : field -> str -> option V.
Definition on_ : str := [111; 110].
Definition off_ : str := [111; 102; 102].
Definition enabled_yes : str := [101; 110; 97; 98; 108; 101; 100; 61; 121; 101; 115].
Definition enabled_no : str := [101; 110; 97; 98; 108; 101; 100; 61; 110; 111].
(** InvalidDirective: malformed, unknown, not valid, set twice *)
Inductive problem := Malformed | Unknown | Invalid | Twice | Fuel.
Inductive parsed := Parsed (o : option_set) | Problem (p : problem).
(** codeconfig.py 59-79: one part *)
Definition parse_part (o : option_set) (part : str) : parsed :=
  let part := if str_eqb part on_ then enabled_yes else part in
  let part := if str_eqb part off_ then enabled_no else part in
  match split_at_eq 2 part with
  | [k; v] =>
    let k := strip k in let v := strip v in
    match find (fun f => str_eqb k (name f)) directive_fields with
    | None => Problem Unknown
    | Some f =>
      match parse_field f v with
      | None => Problem Invalid
      | Some x => match o f with Some _ => Problem Twice | None => Parsed (overlay o (single f x)) end
      end
    end
  | _ => Problem Malformed
  end.
Fixpoint parse_parts (o : option_set) (parts : list str) : parsed :=
  match parts with
  | [] => Parsed o
  | p :: r => match parse_part o p with Parsed o => parse_parts o r | e => e end
  end.
Fixpoint parse_lines (o : option_set) (lines : list str) : parsed :=
  match lines with
  | [] => Parsed o
  | l :: r => match findall (S (List.length l)) l with
              | Ok parts => match parse_parts o parts with Parsed o => parse_lines o r | e => e end
              | Err _ => Problem Fuel
              end
  end.
(** 46-79 parse_directives *)
Definition parse_directives (lines : list str) : parsed := parse_lines empty lines.
(** 82-118 collect_options along a chain of scopes, outermost first: each scope is its
    directives with their columns and whether it is a module *)
Definition scope := (bool * list (Z * str))%type.
Definition own_directives (s : scope) : list str :=
  map snd (if fst s then filter (fun d => fst d =? 0) (snd s) else snd s).
Fixpoint collect_options (parent : option_set) (chain : list scope) : parsed :=
  match chain with
  | [] => Parsed parent
  | s :: r => match parse_directives (own_directives s) with
              | Parsed o => collect_options (overlay parent o) r
              | e => e
              end
  end.
(** core.py 1016-1017 *)
Definition full_options (default : options) (chain : list scope) (cmdline : option_set) : options + problem :=
  match collect_options empty chain with
  | Parsed fn_options => inl (overlay_full (overlay_full default fn_options) cmdline)
  | Problem p => inr p
  end.
End Values.

(** options.py 29-34 _parse_bool: fullmatch with re.I, under which U+017F matches s *)
Definition fold_char (c : Z) : Z := if (65 <=? c) && (c <=? 90) then c + 32 else if c =? 383 then 115 else c.
Definition parse_bool (s : str) : option bool :=
  let t := map fold_char s in
  if existsb (str_eqb t) [[49]; [116; 114; 117; 101]; [121; 101; 115]; [121]] then Some true
  else if existsb (str_eqb t) [[48]; [102; 97; 108; 115; 101]; [110; 111]; [110]] then Some false
  else None.

(** Limits.  A timeout is a float that is not negative: a fraction of integers with a
    positive denominator, infinity, or NaN. *)
Inductive limit := NaN | Inf | Fin (a b : Z).
Definition maxsize : Z := 2 ^ 63 - 1.
Definition is_finite (t : limit) : bool := match t with Fin _ _ => true | _ => false end.
Definition is_nan (t : limit) : bool := match t with NaN => true | _ => false end.
(** 154-163 *)
Definition get_max_uninteresting_iterations (mui : Z) (pct : limit) : Z :=
  if (mui =? maxsize) && negb (is_finite pct) then 5
  else if mui =? 0 then maxsize
  else mui.
(** 165-177; [sqrt_] is x ** 0.5 *)
Definition get_per_path_timeout (sqrt_ : Z * Z -> limit) (ppt : limit) (mui : Z) (pct : limit) : limit :=
  if is_nan ppt then
    match pct with
    | Fin a b => if b <? a then sqrt_ (a, b) else Fin a b
    | _ => let m := get_max_uninteresting_iterations mui pct in
           if m <? maxsize then Fin (Z.max m 1) 1 else Inf
    end
  else ppt.

(** Float arithmetic: binary64, round to nearest, ties to even, no overflow (the values
    split are far below it). *)
Definition rne (a b : Z) : Z :=
  let q := a / b in let r := a mod b in
  if 2 * r <? b then q else if b <? 2 * r then q + 1 else if Z.even q then q else q + 1.
(** the exponent of the last bit of the nearest floats to a/b: floor(log2(a/b)) - 52 *)
Definition ulp_exp (a b : Z) : Z :=
  let e := Z.log2 a - Z.log2 b in
  let e := if (if 0 <=? e then b * 2 ^ e <=? a else b <=? a * 2 ^ (- e)) then e else e - 1 in
  Z.max (e - 52) (-1074).
Definition fl (a b : Z) : Z * Z :=
  if a =? 0 then (0, 1)
  else let e := ulp_exp a b in
       if 0 <=? e then (rne a (b * 2 ^ e) * 2 ^ e, 1) else (rne (a * 2 ^ (- e)) b, 2 ^ (- e)).
(** a timeout times a finite float *)
Definition fmul (t : limit) (p : Z * Z) : limit :=
  match t with
  | NaN => NaN
  | Inf => if fst p =? 0 then NaN else Inf
  | Fin a b => let '(x, y) := fl (a * fst p) (b * snd p) in Fin x y
  end.
(** 190-215 split_limits; max_iterations is converted to a float for the product, and
    round() ties to even *)
Definition split_iterations (m : Z) (p : Z * Z) : Z * Z :=
  let '(x, y) := fl m 1 in
  let '(u, v) := fl (x * fst p) (y * snd p) in
  let m1 := rne u v in (m1, m - m1).
Definition inv_priority (p : Z * Z) : Z * Z := fl (snd p - fst p) (snd p).
Definition split_timeout (t : limit) (p : Z * Z) : limit * limit := (fmul t p, fmul t (inv_priority p)).
