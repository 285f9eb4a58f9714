(** What CPython's regular expression engine does (Modules/_sre, CPython 3.11),
    written without reference to CrossHair.  The engine backtracks: it explores the
    ways in which a pattern can match at a position in a fixed order of preference and
    takes the first.  Here [ways p i] is the list of all of them, in that order, each
    with the position at which the match ends and the captures made, the latest
    first.  Positions are integers between 0 and the length of the string.  Patterns
    are parse trees, as CrossHair and CPython both get them from sre_parse. *)
From Coq Require Import List Bool ZArith.
From Verif Require Import Regex_Model.
Import ListNotations.
Open Scope Z_scope.

Definition captures := list (nat * (Z * Z)).
Definition way := (Z * captures)%type.

(** The span last captured by a group. *)
Fixpoint captured (g : nat) (l : captures) : option (Z * Z) :=
  match l with
  | [] => None
  | (h, sp) :: l => if Nat.eqb g h then Some sp else captured g l
  end.

(** First [w], then [k] where [w] ended. *)
Definition and_then (w : list way) (k : Z -> list way) : list way :=
  flat_map (fun x => map (fun y => (fst y, snd y ++ snd x)) (k (fst x))) w.

Section Repeat.
  Variable body : Z -> list way.
  Variable lazy : bool.
  (** [lo] more repetitions are required and [hi] more are allowed; beyond the
      required ones, the body is not tried again at the position where it was last
      tried.  [steps] bounds the number of repetitions and is never the limit. *)
  Fixpoint repeats (steps lo : nat) (hi : option nat) (last : option Z) (i : Z) : list way :=
    match steps with
    | O => []
    | S steps =>
        match lo with
        | S lo => and_then (body i) (repeats steps lo (option_map Nat.pred hi) last)
        | O =>
            let stop := match hi with Some O => true | _ => false end ||
                        match last with Some x => x =? i | None => false end in
            let more := if stop then []
                        else and_then (body i) (repeats steps O (option_map Nat.pred hi) (Some i)) in
            if lazy then (i, []) :: more else more ++ [(i, [])]
        end
    end.
End Repeat.

Section Spec.
  Variable C : Type.
  Variable covers : C -> Z -> bool.    (* the characters a single-character node matches *)
  Variable word : Z -> bool.           (* \w *)
  Variable multiline : bool.           (* re.MULTILINE *)
  Variable s : list Z.

  Definition len := Z.of_nat (length s).
  (** The character at position i, if there is one. *)
  Definition at_pos (i : Z) : option Z := if i <? 0 then None else nth_error s (Z.to_nat i).
  Definition holds (f : Z -> bool) (o : option Z) : bool := match o with Some c => f c | None => false end.

  (** SRE(at) *)
  Definition at_holds (a : at_code) (i : Z) : bool :=
    let newline := Z.eqb 10 in
    let edge := xorb (holds word (at_pos (i - 1))) (holds word (at_pos i)) in
    match a with
    | ABegin => (i =? 0) || (multiline && holds newline (at_pos (i - 1)))
    | ABeginStr => i =? 0
    | AEnd => (i =? len) ||
              (if multiline then holds newline (at_pos i)
               else (i =? len - 1) && holds newline (at_pos i))
    | AEndStr => i =? len
    | ABoundary => negb (len =? 0) && edge
    | ANonBoundary => negb (len =? 0) && negb edge
    end.

  (** The ways in which one node, or a sequence of nodes, matches at [i]. *)
  Fixpoint ways (p : node C) (i : Z) {struct p} : list way :=
    let fix seq (ps : list (node C)) (i : Z) {struct ps} : list way :=
      match ps with
      | [] => [(i, [])]
      | p :: ps => and_then (ways p i) (seq ps)
      end in
    match p with
    | NChar c => if holds (covers c) (at_pos i) then [(i + 1, [])] else []
    | NRep lazy lo hi sub => repeats (seq sub) lazy (lo + Z.to_nat (len - i) + 2) lo hi None i
    | NBranch alts => (fix any (alts : list (list (node C))) : list way :=
                         match alts with [] => [] | a :: alts => seq a i ++ any alts end) alts
    | NAt a => if at_holds a i then [(i, [])] else []
    | NLook ahead positive width sub =>
        (* only the first way of matching [sub] matters; a lookbehind assertion looks
           [width] characters back *)
        let from := if ahead then i else i - Z.of_nat width in
        let found := if from <? 0 then [] else seq sub from in
        if positive then match found with [] => [] | (_, l) :: _ => [(i, l)] end
        else match found with [] => [(i, [])] | _ :: _ => [] end
    | NGroup g sub => map (fun x => (fst x, (g, (i, fst x)) :: snd x)) (seq sub i)
    | NEnd g b => [(i, [(g, (b, i))])]     (* end of a group that began at [b]; not in parse trees *)
    end.
  Fixpoint seq_ways (ps : list (node C)) (i : Z) {struct ps} : list way :=
    match ps with
    | [] => [(i, [])]
    | p :: ps => and_then (ways p i) (seq_ways ps)
    end.

  (** A match at [i]: the preferred way among those that [good] accepts. *)
  Definition first_way (good : way -> bool) (ps : list (node C)) (i : Z) : option way :=
    find good (seq_ways ps i).
  (** Pattern.match at [i], and Pattern.fullmatch *)
  Definition match_at := first_way (fun _ => true).
  Definition fullmatch_at := first_way (fun w => fst w =? len).
  (** a match that is not empty, as the engine seeks where it last found an empty one *)
  Definition advance_at (ps : list (node C)) (i : Z) := first_way (fun w => negb (fst w =? i)) ps i.

  (** Pattern.search from [i]: the match at the first position that has one, up to and
      including the end of the string. *)
  Fixpoint search_at (n : nat) (ps : list (node C)) (i : Z) : option (Z * way) :=
    match match_at ps i with
    | Some w => Some (i, w)
    | None => match n with O => None | S n => search_at n ps (i + 1) end
    end.
  Definition search (ps : list (node C)) (i : Z) := search_at (Z.to_nat (len - i)) ps i.

  (** Pattern.finditer from [i]: each match is sought from where the previous one
      ended; just after an empty match, at the same position, only a match that is not
      empty will do. *)
  Fixpoint finditer_at (n : nat) (ps : list (node C)) (i : Z) (must_advance : bool) : list (Z * way) :=
    match n with
    | O => []
    | S n =>
        if len <? i then []
        else match (if must_advance then advance_at ps i else match_at ps i) with
             | None => finditer_at n ps (i + 1) false
             | Some w => (i, w) :: finditer_at n ps (fst w) (fst w =? i)
             end
    end.
  Definition finditer (ps : list (node C)) (i : Z) := finditer_at (2 * length s + 4) ps i false.

  (** Pattern.subn: the text between matches is kept; [repl] is what the replacement
      makes of a match.  At most [count] matches are replaced, or all if it is 0. *)
  Fixpoint splice (repl : Z * way -> list Z) (i : Z) (ms : list (Z * way)) : list Z :=
    match ms with
    | [] => skipn (Z.to_nat i) s
    | m :: ms => firstn (Z.to_nat (fst m - i)) (skipn (Z.to_nat i) s) ++ repl m ++ splice repl (fst (snd m)) ms
    end.
  Definition subn (repl : Z * way -> list Z) (ps : list (node C)) (count : Z) : list Z * Z :=
    let ms := finditer ps 0 in
    let ms := if count =? 0 then ms else firstn (Z.to_nat count) ms in
    (splice repl 0 ms, Z.of_nat (length ms)).
End Spec.

(** Pattern.match(string, pos, endpos) sees the string only up to endpos. *)
Definition visible (s : list Z) (endpos : option Z) : list Z :=
  match endpos with Some e => firstn (Z.to_nat e) s | None => s end.

(** ** Match objects *)
(** The text of a span. *)
Definition text (s : list Z) (sp : Z * Z) : list Z :=
  firstn (Z.to_nat (snd sp - fst sp)) (skipn (Z.to_nat (fst sp)) s).
(** Match.lastindex: the group closed last *)
Definition lastindex (w : way) : option nat := option_map fst (hd_error (snd w)).
(** The span of a group, 0 being the whole match *)
Definition group_span (m : Z * way) (g : nat) : option (Z * Z) :=
  match g with O => Some (fst m, fst (snd m)) | _ => captured g (snd (snd m)) end.
(** Match.group(g): the text of the group, None if it took no part *)
Definition group_text (s : list Z) (m : Z * way) (g : nat) : option (list Z) :=
  option_map (text s) (group_span m g).
(** Match.groups() *)
Definition groups_of (s : list Z) (groups : nat) (m : Z * way) : list (option (list Z)) :=
  map (group_text s m) (seq 1 groups).
(** Match.groupdict() *)
Definition groupdict {K} (s : list Z) (m : Z * way) (names : list (K * nat)) : list (K * option (list Z)) :=
  map (fun kn => (fst kn, group_text s m (snd kn))) names.

(** Match.expand: a template is text with references to groups. *)
Inductive tok := TLit (c : Z) | TRef (g : nat).
Definition digit_of (n : Z) : Z := 48 + n.
Definition render_tok (t : tok) : list Z :=
  match t with
  | TLit c => [c]
  | TRef g => let n := Z.of_nat g in
      92 :: if n <? 10 then [digit_of n] else [digit_of (n / 10); digit_of (n mod 10)]
  end.
Definition render (ts : list tok) : list Z := flat_map render_tok ts.
(** A group that took no part is replaced by nothing. *)
Definition expand_tok (s : list Z) (m : Z * way) (t : tok) : list Z :=
  match t with
  | TLit c => [c]
  | TRef g => match group_text s m g with Some x => x | None => [] end
  end.
Definition expand (s : list Z) (m : Z * way) (ts : list tok) : list Z := flat_map (expand_tok s m) ts.
