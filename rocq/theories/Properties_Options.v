(** C33: options *)
From Coq Require Import ZArith List Bool Lia ZifyBool String.
From Verif Require Import Py Str_Model Options_Model Options_Spec Options_Proofs.
Arguments of_string _%string.
Import ListNotations.
Open Scope Z_scope.

(** Overlaying option sets one over the other: each option has the last value given. *)
Theorem C33_overlay : forall V (l : list (option_set V)) a f,
  fold_left (overlay V) l a f = last_given (a f :: map (fun o => o f) l).
Proof. exact overlay_chain. Qed.
Lemma last_given_app {V} (l m : list (option V)) : last_given (l ++ m) = match last_given m with Some v => Some v | None => last_given l end.
Proof. induction l as [|x l IH]; cbn; [now destruct (last_given m)|]. rewrite IH. destruct (last_given m); reflexivity. Qed.
Lemma own_applicable s : own_directives s = applicable (fst s) (snd s).
Proof.
  destruct s as [[] l]; unfold own_directives; cbn [fst snd]; induction l as [|[c t] l IH]; cbn; try reflexivity; [|now rewrite <- IH].
  rewrite <- IH. destruct (Z.eq_dec c 0); destruct (Z.eqb_spec c 0); try contradiction; reflexivity.
Qed.
(** The options a function is checked with: for each one, the command line's value if
    given, else the innermost scope's that gives one, else the default. *)
Theorem C33_effective : forall V ws name parse_field default chain cmdline r,
  full_options V ws name parse_field default chain cmdline = inl r ->
  exists os, Forall2 (fun s o => parse_directives V ws name parse_field (applicable (fst s) (snd s)) = Parsed V o) chain os /\
  forall f, r f = match last_given (map (fun o => o f) os ++ [cmdline f]) with Some v => v | None => default f end.
Proof.
  cut (forall V ws name parse_field default chain cmdline r,
  full_options V ws name parse_field default chain cmdline = inl r ->
  exists os, Forall2 (fun s o => parse_directives V ws name parse_field (own_directives s) = Parsed V o) chain os /\
  forall f, r f = match last_given (map (fun o => o f) os ++ [cmdline f]) with Some v => v | None => default f end).
  { intros H V ws name parse_field default chain cmdline r E. destruct (H _ _ _ _ _ _ _ _ E) as (os & F & G). exists os. split; [|exact G].
    clear - F. induction F as [|s o l m X F IH]; constructor; [now rewrite <- own_applicable|exact IH]. }
  intros V ws name parse_field default chain cmdline r. unfold full_options.
  assert (G : forall chain parent o, collect_options V ws name parse_field parent chain = Parsed V o ->
    exists os, Forall2 (fun s o => parse_directives V ws name parse_field (own_directives s) = Parsed V o) chain os /\ o = fold_left (overlay V) os parent).
  { clear. induction chain as [|s chain IH]; intros parent o; cbn [collect_options].
    - intro E. injection E as <-. exists []. split; [constructor|reflexivity].
    - destruct (parse_directives V ws name parse_field (own_directives s)) as [o1|] eqn:P; [|discriminate]. intro E.
      destruct (IH _ _ E) as (os & F & ->). exists (o1 :: os). split; [constructor; assumption|reflexivity]. }
  destruct (collect_options _ _ _ _ _ chain) as [o|] eqn:E; [|discriminate]. intro H. injection H as <-.
  destruct (G _ _ _ E) as (os & F & ->). exists os. split; [exact F|]. intro f. unfold overlay_full. rewrite overlay_chain, last_given_app. cbn.
  destruct (cmdline f); [reflexivity|]. destruct (last_given (map (fun o => o f) os)); reflexivity.
Qed.
(** A directive problem in any scope is reported, never passed over. *)
Theorem C33_problem : forall V ws name parse_field default chain cmdline s p,
  In s chain -> parse_directives V ws name parse_field (applicable (fst s) (snd s)) = Problem V p ->
  exists q, full_options V ws name parse_field default chain cmdline = inr q.
Proof.
  intros V ws name parse_field default chain cmdline s p I P. rewrite <- own_applicable in P. unfold full_options. generalize (empty V). induction chain as [|t chain IH]; [contradiction|].
  intro o. cbn [collect_options]. destruct I as [->|I].
  - rewrite P. eauto.
  - destruct (parse_directives V ws name parse_field (own_directives t)); [now apply IH|eauto].
Qed.
(** Directives that assign, with any white space: they are accepted exactly when each
    names an option that directives may set, each value is valid and none is set twice;
    then each is set to its value and no other option is set. *)
Theorem C33_directives : forall V (parse_field : field -> str -> option V) lines kvss,
  Forall2 (assigns py_ws) lines kvss ->
  match parse_directives V py_ws field_name parse_field lines with
  | Parsed _ o => exists fvs, good V field_name parse_field (List.concat kvss) fvs /\ settings_of fvs o
  | Problem _ _ => forall fvs, ~ good V field_name parse_field (List.concat kvss) fvs
  end.
Proof.
  intros V parse_field lines kvss F. unfold parse_directives. rewrite (parse_lines_ok V py_ws eq_refl field_name parse_field lines kvss F).
  destruct (outcomes V field_name parse_field (empty V) (List.concat kvss)) as [o|p] eqn:E.
  - destruct (outcomes_bad V field_name parse_field _ _ _ E) as (fvs & G & ND & _). exists fvs. split; [split; assumption|]. split; [assumption|].
    destruct (outcomes_good V field_name parse_field field_name_inj _ _ G (empty V) ND) as (o' & E' & H); [reflexivity|].
    rewrite E in E'. injection E' as <-. intros f v. rewrite H. unfold empty. intuition discriminate.
  - intros fvs [G ND]. destruct (outcomes_good V field_name parse_field field_name_inj _ _ G (empty V) ND) as (o' & E' & _); [reflexivity|]. congruence.
Qed.
(** [on] and [off] stand for enabled=yes and enabled=no; anything else with no equals
    sign is malformed. *)
Theorem C33_on_off : forall V (parse_field : field -> str -> option V) o,
  parse_part V py_ws field_name parse_field o on_ = parse_part V py_ws field_name parse_field o (of_string "enabled=yes") /\
  parse_part V py_ws field_name parse_field o off_ = parse_part V py_ws field_name parse_field o (of_string "enabled=no") /\
  forall p, Forall (fun c => c <> eq_ch) p -> p <> on_ -> p <> off_ -> parse_part V py_ws field_name parse_field o p = Problem V Malformed.
Proof.
  intros V parse_field o. split; [reflexivity|]. split; [reflexivity|]. intros p N O1 O2. unfold parse_part.
  destruct (str_eqb p on_) eqn:E1; [apply str_eqb_eq in E1; congruence|]. cbv zeta. destruct (str_eqb p off_) eqn:E2; [apply str_eqb_eq in E2; congruence|].
  assert (X : split_at_eq 2 p = [p]) by exact (split_go_end py_ws 1 p [] N). rewrite X. reflexivity.
Qed.
(** A name followed by an equals sign with nothing after it is a problem. *)
Theorem C33_no_value : forall V (parse_field : field -> str -> option V) b k b1 b2 more,
  blank py_ws b -> word py_ws k -> blank py_ws b1 -> b1 <> [] -> blank py_ws b2 ->
  exists p, parse_directives V py_ws field_name parse_field ((b ++ k ++ b1 ++ [eq_ch] ++ b2) :: more) = Problem V p.
Proof.
  intros V parse_field b k b1 b2 more B K B1 N1 B2. unfold parse_directives. cbn [parse_lines].
  assert (H : exists n, findall py_ws (S (List.length (b ++ k ++ b1 ++ [eq_ch] ++ b2))) (b ++ k ++ b1 ++ [eq_ch] ++ b2) = findall py_ws (S (S (S n))) (b ++ k ++ b1 ++ [eq_ch] ++ b2)).
  { destruct K as [K _]. destruct k; [congruence|]. rewrite !app_length. cbn [List.length]. exists (List.length b + List.length k + List.length b1 + List.length b2 - 0)%nat. f_equal. lia. }
  destruct H as [n ->].
  assert (E : findall py_ws (S (S (S n))) (b ++ k ++ b1 ++ [eq_ch] ++ b2) = Ok [k; [eq_ch]]).
  { destruct (word_head _ _ K) as (c & r & E & C).
    assert (M : match1 py_ws (k ++ b1 ++ [eq_ch] ++ b2) = (k, b1 ++ [eq_ch] ++ b2)).
    { unfold match1. rewrite (run_app py_ws k); [|apply word_run; exact K|right; destruct b1 as [|d b1]; [congruence|]; inversion B1; subst; eexists _, _; split; [reflexivity|assumption]].
      rewrite ws_run_app; [|exact B1|right; eexists _, _; split; reflexivity]. cbn [app].
      rewrite <- (app_nil_r b2) at 1. rewrite ws_run_app; [|exact B2|now left]. cbn [slen List.length]. rewrite andb_false_r, (word_last _ _ K). reflexivity. }
    assert (M2 : match1 py_ws ([eq_ch] ++ b2) = ([eq_ch], b2)).
    { unfold match1. rewrite (run_app py_ws [eq_ch]); [|repeat constructor|destruct b2 as [|d b2]; [now left|right; inversion B2; subst; eexists _, _; split; [reflexivity|assumption]]].
      rewrite <- (app_nil_r b2) at 1. rewrite ws_run_app; [|exact B2|now left]. reflexivity. }
    cbn [findall]. rewrite (skip_ws_app py_ws b) by exact B. rewrite (skip_ws_stop py_ws (k ++ _)) by (rewrite E; exact C).
    rewrite E at 1. cbn [app]. change (c :: r ++ b1 ++ eq_ch :: b2) with ((c :: r) ++ b1 ++ [eq_ch] ++ b2). rewrite <- E, M. cbv beta iota.
    rewrite (skip_ws_app py_ws b1) by exact B1. rewrite (skip_ws_stop py_ws ([eq_ch] ++ b2)) by reflexivity.
    cbn [app]. change (eq_ch :: b2) with ([eq_ch] ++ b2). rewrite M2. cbv beta iota. rewrite <- (app_nil_r b2), (skip_ws_app py_ws b2) by exact B2. reflexivity. }
  rewrite E. cbn [parse_parts]. destruct (parse_part V py_ws field_name parse_field (empty V) k) as [o|p]; [|eauto].
  replace (parse_part V py_ws field_name parse_field o [eq_ch]) with (Problem V Unknown) by reflexivity. eauto.
Qed.
(** The command line sets only the options it has flags for. *)
Theorem C33_command_line : forall V (src : option_set V) f,
  option_set_from_dict V src f = if existsb (field_eqb f) cmdline_fields then src f else None.
Proof. exact from_dict_lookup. Qed.
(** The documented defaults of --max_uninteresting_iterations ... *)
Theorem C33_max_uninteresting : forall mui pct,
  (mui = maxsize -> is_finite pct = false -> get_max_uninteresting_iterations mui pct = 5) /\
  (mui = maxsize -> is_finite pct = true -> get_max_uninteresting_iterations mui pct = maxsize) /\
  (mui = 0 -> get_max_uninteresting_iterations mui pct = maxsize) /\
  (mui <> maxsize -> mui <> 0 -> get_max_uninteresting_iterations mui pct = mui).
Proof.
  intros mui pct. unfold get_max_uninteresting_iterations. assert (maxsize <> 0) by discriminate.
  repeat split; intros; subst; destruct (is_finite pct); try discriminate; cbn [negb]; rewrite ?Z.eqb_refl, ?andb_false_r, ?andb_true_r; try reflexivity;
  try (replace (mui =? maxsize) with false by lia); try (replace (mui =? 0) with false by lia); reflexivity.
Qed.
(** ... and of --per_path_timeout *)
Theorem C33_per_path_timeout : forall sqrt_ ppt mui pct,
  (is_nan ppt = false -> get_per_path_timeout sqrt_ ppt mui pct = ppt) /\
  (is_nan ppt = true -> forall a b, pct = Fin a b -> get_per_path_timeout sqrt_ ppt mui pct = (if b <? a then sqrt_ (a, b) else Fin a b)) /\
  (is_nan ppt = true -> is_finite pct = false -> mui = 0 -> get_per_path_timeout sqrt_ ppt mui pct = Inf) /\
  (is_nan ppt = true -> is_finite pct = false -> mui = maxsize -> get_per_path_timeout sqrt_ ppt mui pct = Fin 5 1) /\
  (is_nan ppt = true -> is_finite pct = false -> 0 < mui < maxsize -> get_per_path_timeout sqrt_ ppt mui pct = Fin mui 1).
Proof.
  intros sqrt_ ppt mui pct. unfold get_per_path_timeout, get_max_uninteresting_iterations.
  split; [intros ->; reflexivity|]. split; [intros -> a b ->; reflexivity|].
  split; [|split]; intros -> F; destruct pct; try discriminate; cbn [is_finite negb]; intro M; subst; try reflexivity;
  replace (mui =? maxsize) with false by lia; replace (mui =? 0) with false by lia; cbn [andb]; replace (mui <? maxsize) with true by lia; f_equal; lia.
Qed.
(** The iteration allotments of the two stages always add up to the whole. *)
Theorem C33_split_sum : forall m p, fst (split_iterations m p) + snd (split_iterations m p) = m.
Proof. intros m p. unfold split_iterations. destruct (fl m 1) as [x y], (fl _ _) as [u v]. cbn. lia. Qed.
(** Full statement: for every max_iterations >= 0 and priority in [0, 1], both allotments
    lie between 0 and the whole.  Proved below 2^53, where the conversion to a float is
    exact; false for sys.maxsize, see below. *)
Theorem C33_split_bounds_partial : forall m p q, 0 <= m < 2 ^ 53 -> 0 <= p <= q -> 0 < q ->
  let '(m1, m2) := split_iterations m (p, q) in m1 + m2 = m /\ 0 <= m1 <= m /\ 0 <= m2 <= m.
Proof. exact split_ok. Qed.
Theorem C33_split_bounds_refuted : exists m p q, 0 <= m <= maxsize /\ 0 <= p <= q /\ 0 < q /\
  let '(m1, m2) := split_iterations m (p, q) in m < m1 /\ m2 < 0.
Proof. exists maxsize, 1, 1. vm_compute. repeat split; discriminate || reflexivity. Qed.
(** ... at the one priority used, the whole default allotment is divided properly. *)
Theorem C33_split_half : split_iterations maxsize (1, 2) = (2 ^ 62, 2 ^ 62 - 1).
Proof. vm_compute. reflexivity. Qed.
(** No stage gets more time than the whole when it is finite ... *)
Theorem C33_split_timeout_partial : forall a b p q, is_float a b -> 0 <= p <= q -> 0 < q ->
  exists x1 y1 x2 y2, split_timeout (Fin a b) (p, q) = (Fin x1 y1, Fin x2 y2) /\
    (0 <= x1 /\ 0 < y1 /\ frac_le (x1, y1) (a, b)) /\ (0 <= x2 /\ 0 < y2 /\ frac_le (x2, y2) (a, b)).
Proof.
  intros a b p q F P Q. destruct (fmul_le a b p q F P Q) as (x1 & y1 & E1 & H1).
  destruct (inv_priority_ok p q P Q) as [P2 Q2]. unfold split_timeout. destruct (inv_priority (p, q)) as [p2 q2]. cbn [fst snd] in P2, Q2.
  destruct (fmul_le a b p2 q2 F P2 Q2) as (x2 & y2 & E2 & H2). exists x1, y1, x2, y2. rewrite E1, E2. auto.
Qed.
(** ... but the least priority of an unlimited time is NaN, which the checks against a
    deadline treat as no limit at all and --per_path_timeout as not given. *)
Theorem C33_split_timeout_refuted : exists p q, 0 <= p <= q /\ 0 < q /\ fst (split_timeout Inf (p, q)) = NaN.
Proof. exists 0, 1. vm_compute. repeat split; discriminate || reflexivity. Qed.
(** Yes and no *)
Theorem C33_bool :
  forall s, parse_bool s = Some true <-> In (map fold_char s) (map of_string ["1"; "true"; "yes"; "y"]%string).
Proof.
  intros s. unfold parse_bool. generalize (map fold_char s). intro t.
  assert (X : forall l, existsb (str_eqb t) l = true <-> In t l).
  { intro l. rewrite existsb_exists. split; [intros (x & I & E); apply str_eqb_eq in E; now subst|]. intro I. exists t. split; [assumption|now apply str_eqb_eq]. }
  destruct (existsb (str_eqb t) [[49]; _; _; _]) eqn:E.
  - apply X in E. split; [intros _; exact E|reflexivity].
  - split; [destruct (existsb (str_eqb t) [[48]; _; _; _]); discriminate|]. intro I. assert (existsb (str_eqb t) [[49]; [116; 114; 117; 101]; [121; 101; 115]; [121]] = true) by (apply X; exact I). congruence.
Qed.

(** Witnesses *)
Example C33_ex_directives :
  Forall2 (assigns py_ws) [of_string "enabled = yes  max_iterations=7 "; of_string "per_path_timeout= 2"]
    [[(of_string "enabled", of_string "yes"); (of_string "max_iterations", of_string "7")]; [(of_string "per_path_timeout", of_string "2")]] /\
  match parse_directives str py_ws field_name (fun _ s => Some s) [of_string "enabled = yes  max_iterations=7 "; of_string "per_path_timeout= 2"] with
  | Parsed _ o => (o enabled, o max_iterations, o per_path_timeout, o timeout) = (Some (of_string "yes"), Some (of_string "7"), Some (of_string "2"), None)
  | _ => False
  end.
Proof.
  split; [|vm_compute; reflexivity]. constructor; [|constructor; [|constructor]].
  - apply (assigns_cons py_ws [] (of_string "enabled") (of_string " ") (of_string " ") (of_string "yes") (of_string "  max_iterations=7 "));
    [constructor|apply ascii_word; [discriminate|reflexivity]|repeat constructor|repeat constructor|apply ascii_word; [discriminate|reflexivity]| |].
    + right. eexists _, _. split; reflexivity.
    + apply (assigns_cons py_ws (of_string "  ") (of_string "max_iterations") [] [] (of_string "7") (of_string " "));
      [repeat constructor|apply ascii_word; [discriminate|reflexivity]|constructor|constructor|apply ascii_word; [discriminate|reflexivity]| |].
      * right. eexists _, _. split; reflexivity.
      * constructor. repeat constructor.
  - apply (assigns_cons py_ws [] (of_string "per_path_timeout") [] (of_string " ") (of_string "2") []);
    [constructor|apply ascii_word; [discriminate|reflexivity]|constructor|repeat constructor|apply ascii_word; [discriminate|reflexivity]|left; reflexivity|constructor; constructor].
Qed.
Example C33_ex_bad : parse_directives str py_ws field_name (fun _ s => Some s) [of_string "enabled=no off"] = Problem str Twice /\
  parse_directives str py_ws field_name (fun _ s => Some s) [of_string "enabled=no=x"] = Problem str Malformed /\
  parse_directives str py_ws field_name (fun _ s => Some s) [of_string "report_all=no"] = Problem str Unknown.
Proof. vm_compute. auto. Qed.
Example C33_ex_chain : match full_options str py_ws field_name (fun _ s => Some s) (fun _ => []) 
    [(true, [(0, of_string "max_iterations=7 per_path_timeout=3"); (4, of_string "max_iterations=9")]); (false, [(4, of_string "max_iterations=8 off")])]
    (single str per_path_timeout (of_string "1")) with
  | inl o => (o max_iterations, o per_path_timeout, o enabled, o unblock) = (of_string "8", of_string "1", of_string "no", [])
  | _ => False end.
Proof. vm_compute. reflexivity. Qed.
Example C33_ex_no_value : parse_directives str py_ws field_name (fun _ s => Some s) [of_string "on enabled ="] = Problem str Malformed. Proof. vm_compute. reflexivity. Qed.
Example C33_ex_no_value2 : blank py_ws (of_string " ") /\ word py_ws (of_string "enabled"). Proof. split; [repeat constructor|apply ascii_word; [discriminate|reflexivity]]. Qed.
Example C33_ex_float : is_float 5 2. Proof. split; [lia|]. split; [lia|]. exists 5, (-1). cbn. repeat split; lia. Qed.
Example C33_ex_split : split_iterations 100 (1, 3) = (33, 67) /\ split_iterations (2 ^ 53 - 1) (1, 2) = (2 ^ 52, 2 ^ 52 - 1). Proof. vm_compute. auto. Qed.

Print Assumptions C33_overlay.
Print Assumptions C33_effective.
Print Assumptions C33_problem.
Print Assumptions C33_directives.
Print Assumptions C33_on_off.
Print Assumptions C33_no_value.
Print Assumptions C33_command_line.
Print Assumptions C33_max_uninteresting.
Print Assumptions C33_per_path_timeout.
Print Assumptions C33_split_sum.
Print Assumptions C33_split_bounds_partial.
Print Assumptions C33_split_bounds_refuted.
Print Assumptions C33_split_half.
Print Assumptions C33_split_timeout_partial.
Print Assumptions C33_split_timeout_refuted.
Print Assumptions C33_bool.
