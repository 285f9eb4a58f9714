(** C177: a directive holds where the documentation says it does. *)
From Coq Require Import ZArith List Bool Lia.
From Verif Require Import Py Options_Model Directive_Model Directive_Spec.
Import ListNotations.
Open Scope Z_scope.

Section Proofs.
Variable ws : Z -> bool.
Hypothesis ws_c : ws 99 = false.
Hypothesis ws_colon : ws 58 = false.

Lemma skip_split : forall s, exists w, blank ws w /\ s = w ++ skip_space ws s.
Proof.
  induction s as [|c s [w [B E]]]; cbn [skip_space]; [exists []; split; [constructor|reflexivity]|].
  destruct (ws c) eqn:W; [|exists []; split; [constructor|reflexivity]].
  exists (c :: w). split; [constructor; assumption|]. cbn [app]. rewrite <- E. reflexivity.
Qed.
Lemma skip_head : forall s c r, skip_space ws s = c :: r -> ws c = false.
Proof.
  induction s as [|a s IH]; intros c r; cbn [skip_space]; [discriminate|].
  destruct (ws a) eqn:W; [apply IH|]. intro E. injection E as <- _. exact W.
Qed.
Lemma skip_app : forall w s, blank ws w -> (forall c r, s = c :: r -> ws c = false) -> skip_space ws (w ++ s) = s.
Proof.
  intros w s B H. induction B as [|a w A B IH]; cbn [app skip_space].
  - destruct s as [|c s]; [reflexivity|]. cbn [skip_space]. rewrite (H c s eq_refl). reflexivity.
  - rewrite A. exact IH.
Qed.
Lemma skip_blank : forall w, blank ws w -> skip_space ws w = [].
Proof. intros w B. induction B as [|a w A B IH]; cbn [skip_space]; [|rewrite A]; auto. Qed.
Lemma literal_app : forall p s, literal p (p ++ s) = Some s.
Proof. induction p as [|a p IH]; intro s; cbn [literal app]; [reflexivity|]. rewrite Z.eqb_refl. apply IH. Qed.
Lemma literal_split : forall p s r, literal p s = Some r -> s = p ++ r.
Proof.
  induction p as [|a p IH]; intros s r; cbn [literal app]; [congruence|].
  destruct s as [|b s]; [discriminate|]. destruct (Z.eqb_spec a b) as [->|]; [|discriminate].
  intro E. rewrite (IH s r E). reflexivity.
Qed.
Lemma blank_forallb : forall s, forallb ws s = true <-> blank ws s.
Proof. intro s. rewrite forallb_forall. symmetry. apply Forall_forall. Qed.
Lemma shortest_split : forall s, exists w, blank ws w /\ s = shortest ws s ++ w /\
  (forall c r, shortest ws s = r ++ [c] -> ws c = false).
Proof.
  induction s as [|a s [w [B [E L]]]].
  - exists []. split; [constructor|]. split; [reflexivity|]. intros c r H. destruct r; discriminate.
  - cbn [shortest]. destruct (forallb ws (a :: s)) eqn:F.
    + exists (a :: s). split; [apply blank_forallb; exact F|]. split; [reflexivity|]. intros c r H. destruct r; discriminate.
    + exists w. split; [exact B|]. split; [cbn [app]; rewrite <- E; reflexivity|].
      intros c r H. destruct r as [|b r]; cbn [app] in H.
      * injection H as <- N. cbn [forallb] in F. apply andb_false_iff in F. destruct F as [F|F]; [exact F|].
        rewrite N in E. cbn [app] in E. subst s. apply blank_forallb in B. congruence.
      * injection H as _ N. exact (L c r N).
Qed.
Lemma shortest_app : forall d w, blank ws w -> (forall c r, d = r ++ [c] -> ws c = false) -> shortest ws (d ++ w) = d.
Proof.
  induction d as [|a d IH]; intros w B L.
  - cbn [app]. destruct B as [|c w C B]; cbn [shortest]; [reflexivity|].
    assert (F : forallb ws (c :: w) = true) by (apply blank_forallb; constructor; assumption). rewrite F. reflexivity.
  - cbn [app shortest]. destruct (forallb ws (a :: d ++ w)) eqn:F.
    + exfalso. apply blank_forallb in F.
      destruct (exists_last (l := a :: d)) as [r [c E]]; [discriminate|].
      specialize (L c r E). unfold blank in F. rewrite Forall_forall in F.
      specialize (F c). change (a :: d ++ w) with ((a :: d) ++ w) in F. rewrite E in F.
      rewrite F in L; [discriminate|]. rewrite !in_app_iff. left. right. left. reflexivity.
    + rewrite IH; [reflexivity|exact B|]. intros c r E. apply (L c (a :: r)). rewrite E. reflexivity.
Qed.

Lemma gives_sub : forall s d, gives ws s d -> re_sub ws s = d /\ (length d < length s)%nat.
Proof.
  intros s d [[H L] [w1 [w2 [w3 [w4 [B1 [B2 [B3 [B4 E]]]]]]]]]. split.
  - unfold re_sub. rewrite E. rewrite literal_app.
    rewrite skip_app; [|exact B1|cbn [app]; intros c r X; injection X as <- _; exact ws_c].
    change [99; 114; 111; 115; 115; 104; 97; 105; 114] with crosshair_. rewrite literal_app.
    rewrite skip_app; [|exact B2|cbn [app]; intros c r X; injection X as <- _; exact ws_colon].
    rewrite literal_app. destruct d as [|a d].
    + rewrite skip_blank; [reflexivity|]. cbn [app]. apply Forall_app. split; assumption.
    + rewrite skip_app; [|exact B3|cbn [app]; intros c r X; injection X as <- _; exact (H a d eq_refl)].
      apply shortest_app; assumption.
  - rewrite E, !app_length. cbn [length]. lia.
Qed.
Lemma sub_gives : forall s, re_sub ws s = s \/ gives ws s (re_sub ws s).
Proof.
  intro s. unfold re_sub. destruct (literal [35] s) as [r|] eqn:E1; [|left; reflexivity].
  destruct (literal crosshair_ (skip_space ws r)) as [r2|] eqn:E2; [|left; reflexivity].
  destruct (literal [58] (skip_space ws r2)) as [r3|] eqn:E3; [|left; reflexivity].
  right. apply literal_split in E1, E2, E3.
  destruct (skip_split r) as [w1 [B1 S1]]. destruct (skip_split r2) as [w2 [B2 S2]].
  destruct (skip_split r3) as [w3 [B3 S3]]. destruct (shortest_split (skip_space ws r3)) as [w4 [B4 [S4 L]]].
  split.
  - split; [|exact L]. intros c t X. apply (skip_head r3 c (t ++ w4)). rewrite S4, X. reflexivity.
  - exists w1, w2, w3, w4. repeat (split; [assumption|]).
    rewrite <- S4, <- S3. change ([99; 114; 111; 115; 115; 104; 97; 105; 114]) with crosshair_.
    rewrite E1, S1 at 1. rewrite E2, S2 at 1. rewrite E3 at 1. reflexivity.
Qed.
Lemma same_text_iff : forall a b, same_text a b = true <-> a = b.
Proof.
  induction a as [|x a IH]; intros [|y b]; cbn [same_text]; try (split; congruence).
  rewrite andb_true_iff, IH, Z.eqb_eq. split; [intros [-> ->]; reflexivity|intro H; injection H as -> ->; auto].
Qed.

(** The directive of a comment is what the documented form says it is. *)
Theorem C177_form : forall c d, get_directives ws [c] = [(col c, d)] <-> gives ws (said c) d.
Proof.
  intros c d. cbn [get_directives]. destruct (same_text (said c) (re_sub ws (said c))) eqn:T.
  - apply same_text_iff in T. split; [discriminate|]. intro G. apply gives_sub in G. destruct G as [G L].
    rewrite <- T in G. subst d. lia.
  - split.
    + intro E. injection E as E. destruct (sub_gives (said c)) as [N|G]; [|rewrite <- E; exact G].
      exfalso. rewrite N in T. assert (same_text (said c) (said c) = true) by (apply same_text_iff; reflexivity). congruence.
    + intro G. apply gives_sub in G. destruct G as [-> _]. reflexivity.
Qed.

Lemma get_right : forall cs, directives ws cs (map snd (get_directives ws cs)).
Proof.
  induction cs as [|c cs IH]; cbn [get_directives map]; [constructor|].
  pose proof (C177_form c) as F. cbn [get_directives] in F.
  destruct (same_text (said c) (re_sub ws (said c))).
  - apply DOther; [|exact IH]. intros d G. apply F in G. discriminate.
  - cbn [map snd]. apply DGives; [|exact IH]. apply F. reflexivity.
Qed.
Lemma filter_get : forall cs, filter (fun d => fst d =? 0) (get_directives ws cs) =
  get_directives ws (filter (fun c => col c =? 0) cs).
Proof.
  induction cs as [|c cs IH]; cbn [get_directives filter]; [reflexivity|].
  destruct (same_text (said c) (re_sub ws (said c))) eqn:T; cbn [filter fst]; destruct (col c =? 0);
    cbn [get_directives]; rewrite ?T, ?IH; reflexivity.
Qed.
Lemma chosen_filter : forall (P : comment -> Prop) b l, (forall c, In c l -> (b c = true <-> P c)) -> chosen P l (filter b l).
Proof.
  intros P b. induction l as [|c l IH]; intro H; cbn [filter]; [constructor|].
  assert (I : chosen P l (filter b l)) by (apply IH; intros x X; apply H; right; exact X).
  specialize (H c (or_introl eq_refl)). destruct (b c).
  - apply CTake; [apply H; reflexivity|exact I].
  - apply CSkip; [|exact I]. intro X. apply H in X. discriminate.
Qed.
Lemma top_right : forall f, well_placed f -> top_directives ws f (own_directives (true, get_directives ws (comments f))).
Proof.
  intros f W. unfold own_directives. cbn [fst snd]. rewrite filter_get. eexists. split; [|apply get_right].
  apply chosen_filter. intros c I. rewrite Z.eqb_eq. exact (W c I).
Qed.
Lemma body_right : forall f fn, body_directives ws f fn (own_directives (false, get_directives ws (source_of fn f))).
Proof.
  intros f fn. unfold own_directives. cbn [fst snd]. eexists. split; [|apply get_right].
  apply chosen_filter. intros c I. rewrite existsb_exists. split.
  - intros [x [X E]]. apply Z.eqb_eq in E. subst x. exact X.
  - intro X. exists fn. split; [exact X|apply Z.eqb_refl].
Qed.

Variable modules : name -> option file.
Lemma prefixes_last : forall n p, prefixes (n ++ [p]) = prefixes n ++ [n ++ [p]].
Proof.
  induction n as [|a n IH]; intro p; cbn [prefixes app map]; [reflexivity|].
  rewrite IH, map_app. reflexivity.
Qed.
Definition tops (n : name) (l : list (list text)) : Prop :=
  Forall2 (fun p ds => exists f, modules p = Some f /\ top_directives ws f ds) (prefixes n) l.
Lemma prefix_length : forall n p, In p (prefixes n) -> (length p <= length n)%nat.
Proof.
  induction n as [|a n IH]; intros p; cbn [prefixes]; [intros []|]. intros [<-|I]; cbn [length]; [lia|].
  apply in_map_iff in I. destruct I as [q [<- I]]. apply IH in I. cbn [length]. lia.
Qed.
Lemma module_right : forall n fuel, n <> [] -> (length n <= fuel)%nat -> imported modules n ->
  (forall p f, In p (prefixes n) -> modules p = Some f -> well_placed f) ->
  exists up, module_scopes ws modules fuel n = Ok up /\ tops n (map own_directives up).
Proof.
  intro n. induction n as [|p n IH] using rev_ind; intros fuel N F I W; [contradiction|].
  destruct fuel as [|fuel]; [rewrite app_length in F; cbn in F; lia|].
  assert (In (n ++ [p]) (prefixes (n ++ [p]))) as Last by (rewrite prefixes_last, in_app_iff; right; left; reflexivity).
  destruct (I _ Last) as [f [M _]]. cbn [module_scopes]. rewrite M.
  assert (PP : parent_pkg (n ++ [p]) f = n).
  { unfold parent_pkg, package_of, rpartition. destruct (is_package f); apply removelast_last. }
  rewrite PP. specialize (top_right f (W _ _ Last M)) as T.
  assert (One : n = [] -> exists up, Ok [(true, get_directives ws (comments f))] = Ok up /\ tops (n ++ [p]) (map own_directives up)).
  { intros ->. eexists. split; [reflexivity|]. unfold tops. cbn [prefixes app map]. constructor; [|constructor].
    exists f. split; [exact M|exact T]. }
  destruct n as [|a n].
  - destruct (package_of ([] ++ [p]) f); apply One; reflexivity.
  - assert (Q : package_of ((a :: n) ++ [p]) f <> []).
    { unfold package_of. destruct (is_package f); [discriminate|]. rewrite removelast_last. discriminate. }
    destruct (package_of ((a :: n) ++ [p]) f) as [|q qs]; [contradiction|].
    destruct (IH fuel) as [up [E U]]; [discriminate|rewrite app_length in F; cbn [length] in *; lia| | |].
    + intros x X. destruct (I x) as [g [G K]]; [rewrite prefixes_last, in_app_iff; left; exact X|].
      exists g. split; [exact G|]. intros _. apply K. intros ->. apply prefix_length in X. rewrite app_length in X. cbn [length] in X. lia.
    + intros x g X. apply W. rewrite prefixes_last, in_app_iff. left. exact X.
    + rewrite E. eexists. split; [reflexivity|]. unfold tops. rewrite prefixes_last, map_app.
      apply Forall2_app; [exact U|]. cbn [map]. constructor; [|constructor]. exists f. split; [exact M|exact T].
Qed.

(** The options of a function are looked for in the packages around it, outermost first, then at
    the top level of its module, then in its body, and nowhere else; when comments start at the
    first column exactly at the top level. *)
Theorem C177_scopes_partial : forall n fn, n <> [] -> imported modules n ->
  (forall p f, In p (prefixes n) -> modules p = Some f -> well_placed f) ->
  exists scopes f outer body, function_scopes ws modules n fn = Ok scopes /\
    map own_directives scopes = outer ++ [body] /\ modules n = Some f /\
    Forall2 (fun p ds => exists g, modules p = Some g /\ top_directives ws g ds) (prefixes n) outer /\
    body_directives ws f fn body.
Proof.
  intros n fn N I W. destruct (module_right n (S (length n)) N) as [up [E T]]; [lia|exact I|exact W|].
  assert (exists f, modules n = Some f) as [f M].
  { destruct (exists_last N) as [m [p ->]]. destruct (I (m ++ [p])) as [f [M _]]; [|eauto].
    rewrite prefixes_last, in_app_iff. right. left. reflexivity. }
  unfold function_scopes. rewrite E, M. do 4 eexists. split; [reflexivity|]. rewrite map_app. cbn [map].
  split; [reflexivity|]. split; [reflexivity|]. split; [exact T|]. apply body_right.
Qed.
End Proofs.

(** "# crosshair: off" and " #crosshair :on " in a package p with a module m and a function 7 *)
Definition off_text : text := [35; 32; 99; 114; 111; 115; 115; 104; 97; 105; 114; 58; 32; 111; 102; 102].
Definition on_text : text := [35; 99; 114; 111; 115; 115; 104; 97; 105; 114; 32; 58; 111; 110; 32].
Definition plain_text : text := [35; 32; 99; 114; 111; 115; 115].
Definition project (m : file) (n : name) : option file :=
  match n with
  | [[112]] => Some {| is_package := true; comments := [{| col := 0; around := []; said := off_text |}] |}
  | [[112]; [109]] => Some m
  | _ => None
  end.
Definition tidy : file :=
  {| is_package := false;
     comments := [{| col := 0; around := []; said := plain_text |}; {| col := 4; around := [7]; said := on_text |};
                  {| col := 4; around := [8]; said := off_text |}] |}.
Example C177_nonvacuous : py_ws 99 = false /\ py_ws 58 = false /\
  imported (project tidy) [[112]; [109]] /\ well_placed tidy /\
  option_map (map own_directives) (match function_scopes py_ws (project tidy) [[112]; [109]] 7 with Ok l => Some l | _ => None end) =
    Some [[[111; 102; 102]]; []; [[111; 110]]].
Proof.
  split; [reflexivity|]. split; [reflexivity|]. split.
  - intros p [<-|[<-|[]]]; eexists; (split; [reflexivity|]); [reflexivity|contradiction].
  - split; [|reflexivity]. intros c [<-|[<-|[<-|[]]]]; cbn; split; congruence.
Qed.
Print Assumptions C177_form.
Print Assumptions C177_scopes_partial.

(** Without that: a comment at the first column inside function 8 holds for function 7 too *)
Definition outdented : file :=
  {| is_package := false; comments := [{| col := 0; around := [8]; said := off_text |}] |}.
Theorem C177_outdented_refuted : exists m scopes,
  function_scopes py_ws (project m) [[112]; [109]] 7 = Ok scopes /\
  nth 1 (map own_directives scopes) [] = [[111; 102; 102]] /\ top_directives py_ws m [].
Proof.
  exists outdented. eexists. split; [reflexivity|]. split; [reflexivity|].
  exists []. split; [|constructor]. apply CSkip; [discriminate|constructor].
Qed.
Print Assumptions C177_outdented_refuted.
(** and a comment behind a statement at the top level of the module does not hold at all *)
Definition trailing : file :=
  {| is_package := false; comments := [{| col := 7; around := []; said := off_text |}] |}.
Theorem C177_trailing_refuted : exists m scopes,
  function_scopes py_ws (project m) [[112]; [109]] 7 = Ok scopes /\
  nth 1 (map own_directives scopes) [] = [] /\ top_directives py_ws m [[111; 102; 102]].
Proof.
  exists trailing. eexists. split; [reflexivity|]. split; [reflexivity|].
  eexists. split; [apply CTake; [reflexivity|constructor]|].
  apply DGives; [|constructor]. apply (C177_form py_ws eq_refl eq_refl {| col := 7; around := []; said := off_text |}).
  reflexivity.
Qed.
Print Assumptions C177_trailing_refuted.
