(** Proofs about declared exceptions. *)
From Coq Require Import ZArith List Bool Lia.
From Verif Require Import Raises_Model Raises_Spec.
Import ListNotations.
Open Scope Z_scope.

Lemma span_app f a b : (forall c, In c a -> f c = true) -> span f (a ++ b) = (a ++ fst (span f b), snd (span f b)).
Proof.
  induction a as [|c a IH]; intros H; [cbn; apply surjective_pairing|]. cbn [app span]. rewrite (H c (or_introl eq_refl)).
  rewrite IH; [reflexivity|]. intros x I. apply H. now right.
Qed.
Lemma span_stop f c r : f c = false -> span f (c :: r) = ([], c :: r).
Proof. cbn. now intros ->. Qed.
Lemma after_app p s : after p (p ++ s) = Some s.
Proof. induction p as [|c p IH]; [reflexivity|]. cbn. now rewrite Z.eqb_refl. Qed.
Lemma after_some p s r : after p s = Some r -> s = p ++ r.
Proof.
  revert s. induction p as [|c p IH]; intros [|d s]; cbn; try congruence. destruct (Z.eqb_spec c d) as [->|]; [|discriminate].
  intros H. now rewrite (IH _ H).
Qed.
(** A text that does not start with p does not start with it when another line follows *)
Lemma after_none p t rest : ~ In newline p -> ~ starts_with p t -> (rest = [] \/ exists r, rest = newline :: r) ->
  after p (t ++ rest) = None.
Proof.
  revert t. induction p as [|c p IH]; intros t Hp Ht Hr; [exfalso; apply Ht; now exists t|].
  destruct t as [|d t].
  - cbn. destruct Hr as [->|[r ->]]; [reflexivity|]. cbn. destruct (Z.eqb_spec c newline) as [->|]; [|reflexivity].
    exfalso. apply Hp. now left.
  - cbn. destruct (Z.eqb_spec c d) as [->|]; [|reflexivity]. apply IH; [|intros [r ->]; apply Ht; now exists r|exact Hr].
    intros I. apply Hp. now right.
Qed.
Lemma split_single n : (forall c, In c n -> c <> 44) -> split_commas n = [n].
Proof.
  induction n as [|c n IH]; intros H; [reflexivity|]. cbn. rewrite IH by (intros x I; apply H; now right).
  destruct (Z.eqb_spec c 44) as [->|]; [|reflexivity]. exfalso. apply (H 44); [now left|reflexivity].
Qed.
Lemma split_nonempty s : split_commas s <> [].
Proof. induction s as [|c s IH]; cbn; [discriminate|]. destruct (split_commas s); [congruence|]. destruct (c =? 44); discriminate. Qed.
Lemma split_app n r : (forall c, In c n -> c <> 44) -> split_commas (n ++ 44 :: r) = n :: split_commas r.
Proof.
  induction n as [|c n IH]; intros H.
  - cbn. generalize (split_nonempty r). destruct (split_commas r); [congruence|reflexivity].
  - cbn [app split_commas]. rewrite IH by (intros x I; apply H; now right).
    destruct (Z.eqb_spec c 44) as [->|]; [|reflexivity]. exfalso. apply (H 44); [now left|reflexivity].
Qed.
Lemma split_commas_of ns : ns <> [] -> (forall n c, In n ns -> In c n -> c <> 44) -> split_commas (commas ns) = ns.
Proof.
  induction ns as [|n ns IH]; intros H0 H; [congruence|]. destruct ns as [|m ns].
  - cbn. apply split_single. intros c I. apply (H n); [now left|exact I].
  - change (commas (n :: m :: ns)) with (n ++ comma :: commas (m :: ns)). unfold comma.
    rewrite split_app; [|intros c I; apply (H n); [now left|exact I]]. rewrite IH; [reflexivity|discriminate|].
    intros x c I. apply H. now right.
Qed.
Lemma in_commas ns c : In c (commas ns) -> c = comma \/ exists n, In n ns /\ In c n.
Proof.
  induction ns as [|n ns IH]; cbn; [intros []|]. destruct ns as [|m ns]; [intros I; right; exists n; auto|].
  intros I. apply in_app_or in I as [I|[<-|I]]; [right; exists n; auto|now left|].
  destruct (IH I) as [->|(x & Hx & Hc)]; [now left|]. right. exists x. split; [now right|exact Hc].
Qed.

Lemma last_app (a q : list Z) : q <> [] -> last (a ++ q) 0 = last q 0.
Proof.
  intros H. induction a as [|c a IH]; [reflexivity|]. cbn [app]. destruct (a ++ q) eqn:E; [|exact IH].
  apply app_eq_nil in E as [_ E]. congruence.
Qed.

Section P.
Variables (space word : Z -> bool).
Hypothesis space_newline : space newline = true.
Hypothesis no_space_colon : space colon = false.
Hypothesis no_space_r : space 114 = false.
Hypothesis no_word_colon : word colon = false.
Notation scan := (scan space word).
Notation attempt := (attempt space word).
Notation well_formed := (well_formed space word).

Lemma attempt_spaces b s : (forall c, In c b -> space c = true) -> attempt (b ++ s) = attempt s.
Proof. intros H. unfold Raises_Model.attempt. rewrite (span_app space b s H). reflexivity. Qed.
Lemma first_form_rest s ns r : first_form space word s = Some (ns, r) -> exists p, s = p ++ r.
Proof.
  assert (G : forall f t, t = fst (span f t) ++ snd (span f t)).
  { intros f t. induction t as [|c t IH]; [reflexivity|]. cbn. destruct (f c); [|reflexivity]. destruct (span f t). cbn in *. congruence. }
  unfold first_form. destruct (after _ s) as [r1|] eqn:E1; [|discriminate]. apply after_some in E1. subst s.
  destruct (span space r1) as [sp r2] eqn:E2. destruct sp; [discriminate|].
  destruct (span _ r2) as [nm r3] eqn:E3. destruct nm as [|c nm]; [discriminate|]. destruct r3 as [|c2 r3]; [discriminate|].
  destruct (c2 =? COLON); [|discriminate]. intros [= <- <-].
  generalize (G space r1). rewrite E2. cbn [fst snd]. intros ->.
  match type of E3 with span ?f _ = _ => generalize (G f r2) end. rewrite E3. cbn [fst snd]. intros ->.
  exists ((COLON :: RAISES) ++ (z :: sp) ++ (c :: nm) ++ [c2]). now rewrite <- !app_assoc.
Qed.
Lemma second_form_rest s ns r : second_form space s = Some (ns, r) -> exists p, s = p ++ r.
Proof.
  assert (G : forall f t, t = fst (span f t) ++ snd (span f t)).
  { intros f t. induction t as [|c t IH]; [reflexivity|]. cbn. destruct (f c); [|reflexivity]. destruct (span f t). cbn in *. congruence. }
  unfold second_form.
  match goal with |- context [after RAISES ?x] =>
    assert (P : exists p0, s = p0 ++ x); [|destruct P as [p0 P]; revert P; generalize x] end.
  { destruct s as [|c s]; [now exists []|]. destruct (c =? COLON); [now exists [c]|now exists []]. }
  intros s1 ->.
  destruct (after RAISES s1) as [r1|] eqn:E1; [|discriminate]. apply after_some in E1. subst s1.
  destruct (span space r1) as [sp r2] eqn:E2. cbn [snd]. destruct r2 as [|c2 r2]; [discriminate|].
  destruct (c2 =? COLON); [|discriminate]. destruct (span _ r2) as [nm r3] eqn:E3. destruct nm as [|c nm]; [discriminate|].
  intros [= <- <-]. generalize (G space r1). rewrite E2. cbn [fst snd]. intros ->.
  match type of E3 with span ?f _ = _ => generalize (G f r2) end. rewrite E3. cbn [fst snd]. intros ->.
  exists (p0 ++ RAISES ++ sp ++ c2 :: c :: nm). rewrite <- !app_assoc. reflexivity.
Qed.
Lemma attempt_rest s ns r : attempt s = Some (ns, r) -> exists p, s = p ++ r.
Proof.
  unfold Raises_Model.attempt. intros H.
  assert (Q : exists p, snd (span space s) = p ++ r).
  { destruct (first_form _ _ _) as [[a b]|] eqn:E.
    - injection H as -> ->. now apply first_form_rest in E.
    - now apply second_form_rest in H. }
  destruct Q as [p Q].
  assert (G : s = fst (span space s) ++ snd (span space s)).
  { clear. induction s as [|c t IH]; [reflexivity|]. cbn. destruct (space c); [|reflexivity]. destruct (span space t). cbn in *. congruence. }
  rewrite Q in G. exists (fst (span space s) ++ p). now rewrite <- app_assoc.
Qed.

(** at a place that is not the start of a line nothing is found up to the next line *)
Lemma scan_text t rest : one_line t -> scan 0 false (t ++ newline :: rest) = scan 0 true rest.
Proof.
  induction t as [|c t IH]; intros H; [reflexivity|]. cbn [app Raises_Model.scan].
  destruct (Z.eqb_spec c NEWLINE) as [->|N]; [exfalso; apply H; now left|]. apply IH. intros I. apply H. now right.
Qed.
Lemma scan_text_end t : one_line t -> scan 0 false t = [].
Proof.
  induction t as [|c t IH]; intros H; [reflexivity|]. cbn [Raises_Model.scan].
  destruct (Z.eqb_spec c NEWLINE) as [->|N]; [exfalso; apply H; now left|]. apply IH. intros I. apply H. now right.
Qed.
(** the characters of a match are skipped *)
Lemma scan_skip p s b : p <> [] -> scan (length p) b (p ++ s) = scan 0 (last p 0 =? NEWLINE) s.
Proof.
  revert b. induction p as [|c p IH]; intros b H; [congruence|]. cbn [length app Raises_Model.scan].
  destruct p as [|d p]; [reflexivity|]. rewrite IH by discriminate. reflexivity.
Qed.
(** a match at the start of a line that ends within it *)
Lemma scan_match p s ns : p <> [] -> last p 0 <> newline -> attempt (p ++ s) = Some (ns, s) ->
  scan 0 true (p ++ s) = ns ++ scan 0 false s.
Proof.
  intros H L A. destruct p as [|c p]; [congruence|]. cbn [app] in *. cbn [Raises_Model.scan].
  rewrite A. f_equal.
  assert (N : (length (p ++ s) - length s = length p)%nat) by (rewrite app_length; lia). rewrite N.
  destruct p as [|d p].
  - cbn in *. destruct (Z.eqb_spec c NEWLINE) as [->|]; [now elim L|reflexivity].
  - rewrite scan_skip by discriminate. destruct (Z.eqb_spec (last (d :: p) 0) NEWLINE) as [E|]; [|reflexivity].
    elim L. exact E.
Qed.
Lemma scan_no_match t b : attempt t = None -> scan 0 b t = scan 0 false t.
Proof. destruct t as [|c t]; intros H; [reflexivity|]. cbn [Raises_Model.scan]. rewrite H. now destruct b. Qed.

(** a blank line changes nothing *)
Lemma scan_blank b rest : blank space b -> scan 0 true (b ++ newline :: rest) = scan 0 true rest.
Proof.
  intros Hb.
  assert (Hs : forall c, In c (b ++ [newline]) -> space c = true).
  { intros c I. apply in_app_or in I as [I|[<-|[]]]; [now apply Hb|exact space_newline]. }
  assert (A : attempt (b ++ newline :: rest) = attempt rest).
  { change (newline :: rest) with ([newline] ++ rest). rewrite app_assoc. now apply attempt_spaces. }
  destruct (attempt rest) as [[ns r]|] eqn:E.
  - destruct (attempt_rest _ _ _ E) as [p ->].
    assert (Hp : p <> []).
    { intros ->. cbn in E. revert E. clear. intros E.
      assert (X : forall s ns, attempt s <> Some (ns, s)); [|now apply (X r ns)]. clear. intros s ns E.
      (* a match is not empty *)
      unfold Raises_Model.attempt in E.
      assert (L : (length (snd (span space s)) <= length s)%nat).
      { clear. induction s as [|c s IH]; [cbn; lia|]. cbn. destruct (space c); [destruct (span space s); cbn in *; lia|cbn; lia]. }
      revert L E. generalize (snd (span space s)). intros r L E.
      assert (G : forall f t, (length (snd (span f t)) <= length t)%nat).
      { clear. intros f t. induction t as [|c t IH]; [cbn; lia|]. cbn. destruct (f c); [destruct (span f t); cbn in *; lia|cbn; lia]. }
      destruct (first_form space word r) as [[a b]|] eqn:F.
      - injection E as -> ->. unfold first_form in F. destruct (after _ r) as [r1|] eqn:E1; [|discriminate].
        apply after_some in E1. subst r. rewrite app_length in L. cbn [length] in L.
        generalize (G space r1). destruct (span space r1) as [[|x sp] r2]; [discriminate|]. cbn [snd]. intros L1.
        match type of F with context [span ?f r2] => generalize (G f r2); destruct (span f r2) as [[|c nm] [|c2 r3]]; try discriminate end.
        cbn [snd length]. intros L2. destruct (c2 =? COLON); [|discriminate]. injection F as _ ->. lia.
      - unfold second_form in E.
        match type of E with context [after RAISES ?x] =>
          assert (P : (length x <= length r)%nat); [|revert P E; generalize x] end.
        { destruct r as [|c r']; [cbn; lia|]. destruct (c =? COLON); cbn; lia. }
        intros s1 P E.
        destruct (after RAISES s1) as [r1|] eqn:E1; [|discriminate]. apply after_some in E1. subst s1.
        rewrite app_length in P. cbn [RAISES length] in P.
        generalize (G space r1). destruct (snd (span space r1)) as [|c2 r2]; [discriminate|]. cbn [length]. intros L1.
        destruct (c2 =? COLON); [|discriminate].
        match type of E with context [span ?f r2] => generalize (G f r2); destruct (span f r2) as [[|c nm] r3]; [discriminate|] end.
        cbn [snd]. intros L2. injection E as _ ->. lia. }
    assert (Same : forall q, q <> [] -> attempt (q ++ r) = Some (ns, r) ->
      scan 0 true (q ++ r) = ns ++ scan 0 (last q 0 =? NEWLINE) r).
    { intros q Hq A'. destruct q as [|c q]; [congruence|]. cbn [app] in *. cbn [Raises_Model.scan]. rewrite A'.
      f_equal. replace (length (q ++ r) - length r)%nat with (length q) by (rewrite app_length; lia).
      destruct q as [|d q]; [reflexivity|]. rewrite scan_skip by discriminate. reflexivity. }
    rewrite (Same p Hp E).
    assert (E2 : b ++ newline :: p ++ r = (b ++ newline :: p) ++ r) by (rewrite <- app_assoc; reflexivity).
    rewrite E2 in *. rewrite Same; [|destruct b; discriminate|exact A].
    rewrite last_app by discriminate. change (newline :: p) with ([newline] ++ p). rewrite last_app by exact Hp. reflexivity.
  - rewrite (scan_no_match _ true A). rewrite scan_text; [reflexivity|]. intros I. now apply Hb in I as [_ I].
Qed.

Lemma blank_space b : blank space b -> forall c, In c b -> space c = true.
Proof. intros H c I. now apply H. Qed.
Lemma no_newline_raises : ~ In newline RAISES /\ ~ In newline (COLON :: RAISES).
Proof. unfold RAISES, newline, COLON. cbn. split; intros H; repeat (destruct H as [H|H]; [discriminate|]); exact H. Qed.
Lemma attempt_prose b t rest : well_formed (Prose b t) -> (rest = [] \/ exists r, rest = newline :: r) ->
  attempt (b ++ t ++ rest) = None.
Proof.
  intros (Hb & Ho & (c & r & -> & Hc) & H1 & H2) Hr. rewrite attempt_spaces by now apply blank_space.
  unfold Raises_Model.attempt. cbn [app]. rewrite (span_stop _ _ _ Hc). cbn [snd].
  unfold first_form. change (c :: r ++ rest) with ((c :: r) ++ rest).
  rewrite (after_none (COLON :: RAISES) (c :: r) rest (proj2 no_newline_raises) H2 Hr).
  unfold second_form. cbn [app]. destruct (Z.eqb_spec c COLON) as [->|N].
  - rewrite (after_none RAISES r rest); [reflexivity|apply no_newline_raises| |exact Hr].
    intros [x ->]. apply H2. now exists x.
  - change (c :: r ++ rest) with ((c :: r) ++ rest). now rewrite (after_none RAISES (c :: r) rest (proj1 no_newline_raises) H1 Hr).
Qed.
Lemma attempt_sentence b g t rest : well_formed (Sentence b g t) -> attempt (b ++ raises ++ g ++ t ++ rest) = None.
Proof.
  intros (Hb & Hg & Ho & (c & r & -> & Hc & Hn)). rewrite attempt_spaces by now apply blank_space.
  unfold Raises_Model.attempt. change raises with RAISES.
  assert (X : span space (RAISES ++ g ++ (c :: r) ++ rest) = ([], RAISES ++ g ++ (c :: r) ++ rest)) by (unfold RAISES; cbn [app]; now apply span_stop).
  rewrite X. cbn [snd].
  assert (F : first_form space word (RAISES ++ g ++ (c :: r) ++ rest) = None) by reflexivity. rewrite F.
  unfold second_form.
  match goal with |- context [after RAISES ?x] => assert (Y : x = RAISES ++ g ++ (c :: r) ++ rest) by reflexivity; rewrite Y end.
  rewrite after_app, span_app by now apply blank_space. cbn [app]. rewrite (span_stop _ _ _ Hc). cbn [snd].
  destruct (Z.eqb_spec c COLON); [contradiction|reflexivity].
Qed.
Lemma attempt_field b g n d rest : well_formed (Field b g n d) ->
  attempt (b ++ colon :: raises ++ g ++ n ++ colon :: d ++ rest) = Some ([n], d ++ rest).
Proof.
  intros (Hb & Hg & Hg0 & Hn0 & Hn & Hd). rewrite attempt_spaces by now apply blank_space.
  unfold Raises_Model.attempt. rewrite (span_stop _ _ _ no_space_colon). cbn [snd].
  unfold first_form. change (colon :: raises ++ g ++ n ++ colon :: d ++ rest) with ((COLON :: RAISES) ++ g ++ n ++ colon :: d ++ rest).
  rewrite after_app, span_app by now apply blank_space. destruct n as [|c n]; [congruence|].
  cbn [app]. rewrite (span_stop space c) by (now apply (Hn c (or_introl eq_refl))). cbn [fst snd].
  destruct g as [|x g]; [congruence|]. cbn [app].
  change (c :: n ++ colon :: d ++ rest) with ((c :: n) ++ colon :: d ++ rest).
  rewrite span_app.
  - rewrite span_stop by (rewrite no_word_colon; reflexivity). cbn [fst snd]. rewrite app_nil_r. reflexivity.
  - intros y I. destruct (Hn y I) as ([W| ->] & _); [now rewrite W|]. now rewrite orb_true_r.
Qed.
Lemma attempt_listing b k g ns cm rest : well_formed (Listing b k g ns cm) -> (rest = [] \/ exists r, rest = newline :: r) ->
  let c := match cm with Some t => hash :: t | None => [] end in
  attempt (b ++ (if k : bool then [colon] else []) ++ raises ++ g ++ colon :: commas ns ++ c ++ rest) = Some (ns, c ++ rest).
Proof.
  intros (Hb & Hg & Hne & Hns & Hns0 & Hc) Hr cc. rewrite attempt_spaces by now apply blank_space.
  set (tail := colon :: commas ns ++ cc ++ rest).
  assert (S2 : second_form space ((if k then [colon] else []) ++ raises ++ g ++ tail) = Some (ns, cc ++ rest)).
  { unfold second_form.
    match goal with |- context [after RAISES ?x] => assert (X : x = RAISES ++ g ++ tail) by (destruct k; reflexivity); rewrite X end.
    rewrite after_app, span_app by now apply blank_space. unfold tail. rewrite (span_stop _ _ _ no_space_colon). cbn [snd].
    change (colon =? COLON) with true. cbv iota. rewrite span_app.
    - assert (Y : span (fun c => negb ((c =? 13) || (c =? 10) || (c =? 35))) (cc ++ rest) = ([], cc ++ rest)).
      { subst cc. destruct cm as [t|]; [reflexivity|]. destruct Hr as [->|[r ->]]; reflexivity. }
      rewrite Y. cbn [fst snd]. rewrite app_nil_r. destruct (commas ns) as [|z l] eqn:E; [congruence|]. rewrite <- E.
      rewrite split_commas_of; [reflexivity|exact Hns0|]. intros n c I1 I2. now apply (Hns n c).
    - intros c I. apply in_commas in I as [->|(n & I1 & I2)]; [reflexivity|].
      destruct (Hns n c I1 I2) as (_ & H1 & H2 & H3). unfold hash, newline in *.
      destruct (Z.eqb_spec c 13), (Z.eqb_spec c 10), (Z.eqb_spec c 35); try contradiction; reflexivity. }
  unfold Raises_Model.attempt.
  assert (X : span space ((if k then [colon] else []) ++ raises ++ g ++ tail) = ([], (if k then [colon] else []) ++ raises ++ g ++ tail)).
  { destruct k; cbn [app]; [now apply span_stop|]. unfold raises. cbn [app]. now apply span_stop. }
  rewrite X. cbn [snd]. rewrite S2.
  assert (F : first_form space word ((if k then [colon] else []) ++ raises ++ g ++ tail) = None).
  { destruct k; [|reflexivity]. unfold first_form.
    change ([colon] ++ raises ++ g ++ tail) with ((COLON :: RAISES) ++ g ++ tail). rewrite after_app, span_app by now apply blank_space.
    unfold tail. rewrite (span_stop _ _ _ no_space_colon). cbn [fst snd]. rewrite app_nil_r. destruct g; [reflexivity|].
    rewrite span_stop; [reflexivity|]. rewrite no_word_colon. reflexivity. }
  now rewrite F.
Qed.
Lemma last_ne p x : p = [] \/ last p x <> newline -> x <> newline -> last p x <> newline.
Proof. intros [->|H] N; auto. Qed.

(** one line, with another after it or not *)
Lemma scan_line l rest : well_formed l -> scan 0 true (render l ++ newline :: rest) = names_of l ++ scan 0 true rest.
Proof.
  intros H. destruct l as [b|b t|b g t|b g n d|b k g ns cm]; cbn [render names_of app].
  - now apply scan_blank.
  - rewrite <- app_assoc. rewrite scan_no_match by (apply attempt_prose; [exact H|right; eauto]). rewrite app_assoc. apply scan_text.
    destruct H as (Hb & Ho & _). intros I. apply in_app_or in I as [I|I]; [now apply Hb in I as [_ I]|contradiction].
  - rewrite <- !app_assoc. rewrite scan_no_match by now apply attempt_sentence. rewrite !app_assoc. apply scan_text.
    destruct H as (Hb & Hg & Ho & _). intros I. rewrite <- !app_assoc in I. apply in_app_or in I as [I|I]; [now apply Hb in I as [_ I]|].
    apply in_app_or in I as [I|I]; [exact (proj1 no_newline_raises I)|]. apply in_app_or in I as [I|I]; [now apply Hg in I as [_ I]|contradiction].
  - assert (E : (b ++ colon :: raises ++ g ++ n ++ colon :: d) ++ newline :: rest =
      (b ++ colon :: raises ++ g ++ n ++ [colon]) ++ (d ++ newline :: rest)) by (repeat (rewrite <- !app_assoc; cbn [app]); reflexivity).
    rewrite E. rewrite (scan_match _ _ [n]).
    + cbn [app]. rewrite scan_text by apply H. reflexivity.
    + destruct b; discriminate.
    + rewrite last_app by discriminate. change (colon :: raises ++ g ++ n ++ [colon]) with ((colon :: raises) ++ g ++ n ++ [colon]).
      rewrite last_app; [|destruct g; [destruct n|]; discriminate]. rewrite last_app; [|destruct n; discriminate].
      rewrite last_app; discriminate.
    + repeat (rewrite <- !app_assoc; cbn [app]). exact (attempt_field b g n d (newline :: rest) H).
  - set (c := match cm with Some t => hash :: t | None => [] end).
    assert (E : (b ++ (if k then [colon] else []) ++ raises ++ g ++ colon :: commas ns ++ c) ++ newline :: rest =
      (b ++ (if k then [colon] else []) ++ raises ++ g ++ colon :: commas ns) ++ (c ++ newline :: rest)) by (repeat (rewrite <- !app_assoc; cbn [app]); reflexivity).
    rewrite E. rewrite (scan_match _ _ ns).
    + f_equal. apply scan_text. subst c. destruct H as (_ & _ & _ & _ & _ & H). destruct cm as [t|]; [|intros []].
      intros [I|I]; [discriminate|contradiction].
    + destruct b; [|discriminate]. destruct k; discriminate.
    + destruct H as (_ & _ & Hne & Hns & _). rewrite !last_app.
      * change (colon :: commas ns) with ([colon] ++ commas ns). rewrite last_app by exact Hne. intros L.
        assert (I : In newline (commas ns)).
        { revert L Hne. clear. generalize (commas ns). intros l. induction l as [|x l IH]; [congruence|]. intros L _.
          destruct l as [|y l]; [left; exact L|]. right. apply IH; [exact L|discriminate]. }
        apply in_commas in I as [I|(n & I1 & I2)]; [discriminate|]. destruct (Hns n newline I1 I2) as (_ & _ & X & _). now apply X.
      * discriminate.
      * destruct g; discriminate.
      * discriminate.
      * destruct k; discriminate.
    + repeat (rewrite <- !app_assoc; cbn [app]). exact (attempt_listing b k g ns cm (newline :: rest) H (or_intror (ex_intro _ rest eq_refl))).
Qed.
Lemma scan_last l : well_formed l -> scan 0 true (render l) = names_of l.
Proof.
  intros H. destruct l as [b|b t|b g t|b g n d|b k g ns cm]; cbn [render names_of].
  - assert (A : attempt b = None).
    { rewrite <- (app_nil_r b). rewrite attempt_spaces by now apply blank_space. reflexivity. }
    rewrite (scan_no_match _ true A). apply scan_text_end. intros I. now apply H in I as [_ I].
  - rewrite scan_no_match.
    + apply scan_text_end. destruct H as (Hb & Ho & _). intros I. apply in_app_or in I as [I|I]; [now apply Hb in I as [_ I]|contradiction].
    + generalize (attempt_prose b t [] H (or_introl eq_refl)). now rewrite app_nil_r.
  - rewrite scan_no_match.
    + apply scan_text_end. destruct H as (Hb & Hg & Ho & _). intros I. apply in_app_or in I as [I|I]; [now apply Hb in I as [_ I]|].
      apply in_app_or in I as [I|I]; [exact (proj1 no_newline_raises I)|]. apply in_app_or in I as [I|I]; [now apply Hg in I as [_ I]|contradiction].
    + generalize (attempt_sentence b g t [] H). now rewrite app_nil_r.
  - assert (E : b ++ colon :: raises ++ g ++ n ++ colon :: d = (b ++ colon :: raises ++ g ++ n ++ [colon]) ++ d)
      by (repeat (rewrite <- !app_assoc; cbn [app]); reflexivity).
    rewrite E. rewrite (scan_match _ _ [n]).
    + rewrite scan_text_end by apply H. reflexivity.
    + destruct b; discriminate.
    + rewrite last_app by discriminate. change (colon :: raises ++ g ++ n ++ [colon]) with ((colon :: raises) ++ g ++ n ++ [colon]).
      rewrite last_app; [|destruct g; [destruct n|]; discriminate]. rewrite last_app; [|destruct n; discriminate].
      rewrite last_app; discriminate.
    + repeat (rewrite <- !app_assoc; cbn [app]). generalize (attempt_field b g n d [] H). now rewrite app_nil_r.
  - set (c := match cm with Some t => hash :: t | None => [] end).
    assert (E : b ++ (if k then [colon] else []) ++ raises ++ g ++ colon :: commas ns ++ c =
      (b ++ (if k then [colon] else []) ++ raises ++ g ++ colon :: commas ns) ++ c) by (repeat (rewrite <- !app_assoc; cbn [app]); reflexivity).
    rewrite E. rewrite (scan_match _ _ ns).
    + rewrite scan_text_end; [now rewrite app_nil_r|]. subst c. destruct H as (_ & _ & _ & _ & _ & H). destruct cm as [t|]; [|intros []].
      intros [I|I]; [discriminate|contradiction].
    + destruct b; [|discriminate]. destruct k; discriminate.
    + destruct H as (_ & _ & Hne & Hns & _). rewrite !last_app.
      * change (colon :: commas ns) with ([colon] ++ commas ns). rewrite last_app by exact Hne. intros L.
        assert (I : In newline (commas ns)).
        { revert L Hne. clear. generalize (commas ns). intros l. induction l as [|x l IH]; [congruence|]. intros L _.
          destruct l as [|y l]; [left; exact L|]. right. apply IH; [exact L|discriminate]. }
        apply in_commas in I as [I|(n & I1 & I2)]; [discriminate|]. destruct (Hns n newline I1 I2) as (_ & _ & X & _). now apply X.
      * discriminate.
      * destruct g; discriminate.
      * discriminate.
      * destruct k; discriminate.
    + repeat (rewrite <- !app_assoc; cbn [app]). generalize (attempt_listing b k g ns cm [] H (or_introl eq_refl)). cbv zeta. fold c. now rewrite app_nil_r.
Qed.
Theorem named_lines ls : Forall well_formed ls -> named space word (document ls) = flat_map names_of ls.
Proof.
  unfold named. induction 1 as [|l ls H Hs IH]; [reflexivity|]. destruct ls as [|m ls].
  - cbn [document flat_map]. rewrite app_nil_r. now apply scan_last.
  - change (document (l :: m :: ls)) with (render l ++ newline :: document (m :: ls)). rewrite (scan_line l _ H), IH. reflexivity.
Qed.
Lemma classes_in {E} (eval : list Z -> option E) names e : In e (classes E eval names) <-> exists n, In n names /\ eval n = Some e.
Proof.
  induction names as [|n names IH]; cbn; [split; [intros []|intros (n & [] & _)]|].
  destruct (eval n) as [x|] eqn:X; cbn; rewrite IH; split.
  - intros [->|(m & I & Em)]; [exists n; auto|exists m; auto].
  - intros (m & [->|I] & Em); [left; congruence|right; eauto].
  - intros (m & I & Em). eauto.
  - intros (m & [->|I] & Em); [congruence|eauto].
Qed.
End P.
