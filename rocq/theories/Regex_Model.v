(** Model of regular expression matching on symbolic strings:
    crosshair/libimpl/relib.py _MatchPart 224-280, _internal_match_patterns 401-670,
    _match_pattern 673-703, _match, _fullmatch, _search, _finditer_symbolic, _subn.

    Pathwise reading: a fork on an SMT expression is the truth value of the
    expression, and strings are lists of code points.  A node that matches a single
    character (LITERAL, NOT_LITERAL, IN, RANGE, CATEGORY, ANY) is [NChar c], where
    [covers c x] is the mask computed by single_char_mask (see CharClass_Model).  The
    patterns are those of sre_parse; non-capturing groups without flags are inlined by
    sre_parse itself.  Group references, conditional groups, atomic groups, possessive
    repeats and inline flags make the code raise ReUnhandled and use CPython's
    matcher; they have no node here. *)
From Coq Require Import List Bool ZArith.
From Verif Require Import Py PySeq_Spec Range_Spec Str_Model.
Import ListNotations.
Open Scope Z_scope.

(** AT_BEGINNING, AT_BEGINNING_STRING, AT_END, AT_END_STRING, AT_BOUNDARY,
    AT_NON_BOUNDARY *)
Inductive at_code := ABegin | ABeginStr | AEnd | AEndStr | ABoundary | ANonBoundary.

Section Regex.
  Variable C : Type.
  Variable covers : C -> Z -> bool.
  Variable word : Z -> bool.           (* get_unicode_categories()["word"] *)
  Variable multiline : bool.           (* re.MULTILINE & flags *)

  Inductive node :=
  | NChar (c : C)
  | NRep (lazy : bool) (lo : nat) (hi : option nat) (sub : list node)
      (* MAX_REPEAT, MIN_REPEAT; hi = None is MAXREPEAT *)
  | NBranch (alts : list (list node))                 (* BRANCH, (None, alts) *)
  | NAt (a : at_code)
  | NLook (ahead positive : bool) (width : nat) (sub : list node)
      (* ASSERT, ASSERT_NOT; width: subpattern.getwidth(), used for lookbehind *)
  | NGroup (g : nat) (sub : list node)                (* SUBPATTERN with a number *)
  | NEnd (g : nat) (begin : Z).                       (* _END_GROUP_MARKER *)

  (** _MatchPart: the spans of the groups, that of the whole match first. *)
  Definition span := (Z * Z)%type.
  Definition part := list (option span).
  Definition p_start (p : part) : Z := match p with Some (a, _) :: _ => a | _ => 0 end.
  Definition p_end (p : part) : Z := match p with Some (_, b) :: _ => b | _ => 0 end.
  (** 246-248 *)
  Definition p_isempty (p : part) : bool := p_end p <=? p_start p.
  (** 256-268: the later match's groups take precedence *)
  Fixpoint overlay (p q : part) : part :=
    match p, q with
    | [], q => q
    | p, [] => p
    | a :: p, b :: q => (match b with None => a | b => b end) :: overlay p q
    end.
  Definition set_nth (n : nat) (v : option span) (p : part) : part :=
    let p := p ++ repeat None (S n - length p) in firstn n p ++ v :: skipn (S n) p.
  Definition add_match (p q : part) : part :=
    set_nth 0 (Some (p_start p, p_end q)) (overlay p q).

  Variable s : list Z.

  (** string[i] for a Python int i *)
  Definition char_at (i : Z) : res Z := py_getitem s i.

  (** continue_matching, 452-467: [next] matches the rest of the patterns *)
  Definition continue_with (next : Z -> bool -> res (option part)) (allow_empty : bool)
             (prefix : part) : res (option part) :=
    let sub_allow_empty := if p_isempty prefix then allow_empty else true in
    do suffix <- next (p_end prefix) sub_allow_empty;
    Ok match suffix with None => None | Some q => Some (add_match prefix q) end.

  (** 504-513: the required repetitions; [sub] matches the repeated pattern *)
  Fixpoint rep_loop (sub : Z -> res (option part)) (k : nat) (overall : part) : res (option part) :=
    match k with
    | O => Ok (Some overall)
    | S k =>
        do sub_match <- sub (p_end overall);
        match sub_match with
        | None => Ok None
        | Some q => rep_loop sub k (add_match overall q)
        end
    end.

  (** 401-670.  [fuel] stands for Python's recursion limit: running out of it is a
      RecursionError. *)
  Fixpoint match_patterns (fuel : nat) (top : list node) (offset : Z) (allow_empty : bool)
    : res (option part) :=
    match fuel with
    | O => Err OutOfFuel
    | S fuel =>
      match top with
      | [] => Ok (if allow_empty then Some [Some (offset, offset)] else None)    (* 447-448 *)
      | pattern :: rest =>
        let continue_matching := continue_with (match_patterns fuel rest) allow_empty in
        (* 472-480 *)
        let fork_on (expr : bool) (sz : Z) : res (option part) :=
          if expr then continue_matching [Some (offset, offset + sz)] else Ok None in
        match pattern with
        | NChar c =>                                                             (* 482-496 *)
            if (offset <? 0) || (Z.of_nat (length s) <=? offset) then Ok None
            else do ch <- char_at offset; fork_on (covers c ch) 1
        | NRep lazy lo hi sub =>                                                 (* 499-562 *)
            if match hi with Some hi => (hi <? lo)%nat | None => false end then Ok None
            else
            do om <- rep_loop (fun o => match_patterns fuel sub o true) lo [Some (offset, offset)];
            match om with
            | None => Ok None
            | Some overall =>
                if match hi with Some hi => (hi <=? lo)%nat | None => false end
                then continue_matching overall                                   (* 514-515 *)
                else
                let remaining := match hi with None => None | Some hi => Some (hi - lo)%nat end in
                do short <- (if lazy then continue_matching overall else Ok None);    (* 522-526 *)
                match short with
                | Some m => Ok (Some m)
                | None =>
                    do more <- match_patterns fuel (NRep lazy 1 remaining sub :: rest)
                                 (p_end overall) (allow_empty || negb (p_isempty overall));
                    match more with
                    | Some q => Ok (Some (add_match overall q))                  (* 541-542 *)
                    | None => if lazy then Ok None else continue_matching overall   (* 544-548 *)
                    end
                end
            end
        | NBranch alts =>                                                        (* 549-572 *)
            match alts with
            | [] => Err IndexError
            | first :: others =>
                do m <- match_patterns fuel (first ++ rest) offset allow_empty;
                match m with
                | Some m => Ok (Some m)
                | None => match others with
                          | [] => Ok None
                          | _ => match_patterns fuel (NBranch others :: rest) offset allow_empty
                          end
                end
            end
        | NAt a =>
            let ends_string := Z.of_nat (length s) - Z.max 0 offset <=? 0 in     (* 584-589 *)
            match a with
            | ABegin | ABeginStr =>                                              (* 574-583 *)
                do b <- fork_on (offset =? 0) 0;
                match b with
                | Some m => Ok (Some m)
                | None => match a with
                          | ABegin => if multiline then do ch <- char_at (offset - 1); fork_on (ch =? 10) 0
                                      else Ok None
                          | _ => Ok None
                          end
                end
            | AEnd | AEndStr =>                                                  (* 590-600 *)
                if ends_string then continue_matching [Some (offset, offset)]
                else match a with
                     | AEnd => if multiline then do ch <- char_at offset; fork_on (ch =? 10) 0
                               else Ok None
                     | _ => Ok None
                     end
            | ABoundary | ANonBoundary =>                                        (* 601-618 *)
                if ends_string || (offset =? 0) then
                  match a with ABoundary => continue_matching [Some (offset, offset)] | _ => Ok None end
                else
                do l <- char_at (offset - 1); do r <- char_at offset;
                fork_on (match a with ABoundary => xorb (word l) (word r) | _ => negb (xorb (word l) (word r)) end) 0
            end
        | NLook ahead positive width sub =>                                      (* 619-642 *)
            if negb ahead && (offset - Z.of_nat width <? 0) then Ok None                  (* 632-634 *)
            else
            do m <- match_patterns fuel sub (if ahead then offset else offset - Z.of_nat width) true;
            if negb (Bool.eqb (match m with Some _ => true | None => false end) positive) then Ok None
            else match_patterns fuel rest offset allow_empty                     (* 640-642 *)
        | NGroup g sub =>                                                        (* 643-654 *)
            match_patterns fuel (sub ++ NEnd g offset :: rest) offset allow_empty
        | NEnd g begin =>                                                        (* 655-663 *)
            do m <- continue_matching [Some (offset, offset)];
            Ok match m with None => None | Some p => Some (set_nth g (Some (begin, offset)) p) end
        end
      end
    end.
End Regex.

Arguments NChar {C}. Arguments NRep {C}. Arguments NBranch {C}. Arguments NAt {C}.
Arguments NLook {C}. Arguments NGroup {C}. Arguments NEnd {C}.

(** orig_str[:endpos], 685 *)
Definition trimmed (s : list Z) (endpos : option Z) : list Z := sslice s None endpos.

(** _clamp_all_spans(0, end), 234-244 *)
Definition clamp_spans (e : Z) (p : part) : part :=
  map (fun o => match o with
                | Some (a, b) => if a =? b then
                                   if e <? a then Some (e, e)
                                   else if a <? 0 then Some (0, 0) else Some (a, b)
                                 else Some (a, b)
                | None => None
                end) p.

(** _Match.__init__, 305-313: None for groups that took no part; [groups]: regex.groups *)
Definition padded (groups : nat) (p : part) : part := p ++ repeat None (S groups - length p).

Section Entry.
  Variable C : Type.
  Variable covers : C -> Z -> bool.
  Variable word : Z -> bool.
  Variable multiline : bool.
  Notation match_patterns := (match_patterns C covers word multiline).
  Variable fuel : nat.
  Variable groups : nat.
  Variable pat : list (node C).

  (** _match_pattern, 673-703; Pattern.match is this with [ps] the pattern (811-826) *)
  Definition match_pattern (ps : list (node C)) (s : list Z) (pos : Z) (endpos : option Z)
             (allow_empty : bool) : res (option part) :=
    do m <- match_patterns (trimmed s endpos) fuel ps pos allow_empty;
    Ok match m with
       | None => None
       | Some p => Some (padded groups (if p_start p =? p_end p then clamp_spans (Z.of_nat (length s)) p else p))
       end.
  Definition re_match (s : list Z) (pos : Z) (endpos : option Z) := match_pattern pat s pos endpos true.
  (** 789-808 *)
  Definition re_fullmatch (s : list Z) (pos : Z) (endpos : option Z) :=
    match_pattern (pat ++ [NAt AEndStr]) s pos endpos true.

  (** _search, 842-871: pos and endpos are normalized like the bounds of a slice *)
  Fixpoint search_from (n : nat) (s : list Z) (pos endpos : Z) : res (option part) :=
    match n with
    | O => Ok None
    | S n => if pos <? endpos then
               do m <- match_pattern pat s pos (Some endpos) true;
               match m with
               | Some p => Ok (Some p)
               | None => search_from n s (pos + 1) endpos
               end
             else Ok None
    end.
  Definition re_search (s : list Z) (pos : Z) (endpos : option Z) : res (option part) :=
    let n := Z.of_nat (length s) in
    search_from (S (length s)) s (adjust n 1 0 (Some pos)) (adjust n 1 n endpos).

  (** _finditer_symbolic, 727-755; [n]: at most twice the number of positions *)
  Fixpoint finditer_from (n : nat) (s : list Z) (pos endpos : Z) (last_empty : bool) : res (list part) :=
    match n with
    | O => Err OutOfFuel
    | S n => if endpos <? pos then Ok []
             else
             do m <- match_pattern pat s pos (Some endpos) (negb last_empty);
             match m with
             | None => finditer_from n s (pos + 1) endpos false
             | Some p =>
                 do r <- (if p_start p =? p_end p then
                            if last_empty then Err AssertionError       (* CrossHairInternal *)
                            else finditer_from n s pos endpos true
                          else finditer_from n s (p_end p) endpos false);
                 Ok (p :: r)
             end
    end.
  Definition re_finditer (s : list Z) (pos : Z) (endpos : option Z) : res (list part) :=
    let n := Z.of_nat (length s) in
    finditer_from (2 * length s + 4) s (adjust n 1 0 (Some pos)) (adjust n 1 n endpos) false.

  (** _subn, 879-912, the replacement being a function of the match; [n]: number of
      characters left *)
  Fixpoint subn_from (n : nat) (repl : list Z -> part -> list Z) (s : list Z) (count : Z) : res (list Z * Z) :=
    do m <- re_search s 0 None;
    match m with
    | None => Ok (s, 0)
    | Some p =>
        let prefix := sslice s None (Some (p_start p)) ++ repl s p in
        if count =? 1 then Ok (prefix ++ sslice s (Some (p_end p)) None, 1)
        else
        let remaining := if p_end p =? p_start p then sslice s (Some (p_end p + 1)) None
                         else sslice s (Some (p_end p)) None in
        match n with
        | O => Err OutOfFuel
        | S n => do r <- subn_from n repl remaining (count - 1);
                 Ok (prefix ++ fst r, snd r + 1)
        end
    end.
  Definition re_subn (repl : list Z -> part -> list Z) (s : list Z) (count : Z) :=
    subn_from (S (length s)) repl s count.
End Entry.

(** ** Match objects: _Match 299-387, on the matched string and the spans of the groups *)
(** group(num), 352-371, for one group given by number *)
Definition m_group (s : list Z) (p : part) (num : Z) : res (option (list Z)) :=
  do sp <- py_getitem p num;
  Ok match sp with None => None | Some (a, b) => Some (sslice s (Some a) (Some b)) end.
(** start, end, span, 270-277: subscripting None is a TypeError *)
Definition m_span (p : part) (num : Z) : res (option span) := py_getitem p num.
Definition m_start (p : part) (num : Z) : res Z :=
  do sp <- py_getitem p num; match sp with None => Err TypeError | Some (a, _) => Ok a end.
Definition m_end (p : part) (num : Z) : res Z :=
  do sp <- py_getitem p num; match sp with None => Err TypeError | Some (_, b) => Ok b end.
(** groups(), 373-378 *)
Fixpoint group_list (s : list Z) (p : part) (gs : list nat) : res (list (option (list Z))) :=
  match gs with
  | [] => Ok []
  | g :: gs => do x <- m_group s p (Z.of_nat g); do r <- group_list s p gs; Ok (x :: r)
  end.
Definition m_groups (s : list Z) (p : part) : res (list (option (list Z))) :=
  group_list s p (seq 1 (length p - 1)).
(** lastindex, 316-323 *)
Fixpoint last_index (idx : nat) (p : part) (last : option nat) : option nat :=
  match p with
  | [] => last
  | None :: p => last_index (S idx) p last
  | Some _ :: p => last_index (S idx) p (Some idx)
  end.
Definition m_lastindex (p : part) : option nat := last_index 0 p None.
(** groupdict(default), 380-387; [names]: re.groupindex *)
Fixpoint m_groupdict {K} (names : list (K * nat)) (p : part) : res (list (K * span)) :=
  match names with
  | [] => Ok []
  | (k, idx) :: names =>
      do sp <- py_getitem p (Z.of_nat idx);
      do r <- m_groupdict names p;
      Ok match sp with None => r | Some sp => (k, sp) :: r end
  end.

Definition is_digit (c : Z) : bool := (48 <=? c) && (c <=? 57).
(** expand(template), 338-350, for templates without \g.  backref_re.fullmatch finds
    the first backslash that is followed by a number from 1 to 99; the pattern's dots
    do not match a newline, so a template with a newline does not match at all. *)
Fixpoint find_ref (template : list Z) : option (list Z * Z * list Z) :=
  match template with
  | [] => None
  | c :: t =>
      let go := match find_ref t with
                | Some (pre, n, suf) => Some (c :: pre, n, suf)
                | None => None
                end in
      if c =? 92 then
        match t with
        | d :: t' =>
            if (49 <=? d) && (d <=? 57) then
              match t' with
              | e :: t'' => if is_digit e then Some ([], 10 * (d - 48) + (e - 48), t'')
                            else Some ([], d - 48, t')
              | [] => Some ([], d - 48, t')
              end
            else go
        | [] => go
        end
      else go
  end.
(** prefix + replacement raises TypeError if the group is None *)
Fixpoint m_expand (n : nat) (s : list Z) (p : part) (template : list Z) : res (list Z) :=
  match n with
  | O => Err OutOfFuel
  | S n =>
      if existsb (Z.eqb 10) template then Ok template
      else match find_ref template with
           | None => Ok template
           | Some (pre, num, suf) =>
               do g <- m_group s p num;
               match g with
               | None => Err TypeError
               | Some g => do r <- m_expand n s p suf; Ok (pre ++ g ++ r)
               end
           end
  end.
