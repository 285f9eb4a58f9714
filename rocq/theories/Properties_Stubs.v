(** C139: unions in annotations of stubs.  Model: [Stubs_Model]; spec: [Stubs_Spec]. *)
From Coq Require Import ZArith List Bool Lia.
Import ListNotations.
From Verif Require Import Stubs_Model Stubs_Spec.

Definition no_bar (t : text) : Prop := ~ In BAR t.
Definition close (f : bool) (b : text) : text := part (f, replace b).
(** the state within brackets: [a] the text before the last bracket or comma [o], [b] what follows it *)
Definition within (a : text) (o : Z) (b : text) (f : bool) (sv : list (nat * bool)) (rest : text) : option state :=
  Some (State (a ++ o :: b ++ rest) sv (length a) f (length a + 1 + length b)).
Definition put_first (f : bool) (b : text) (l : list (bool * text)) : list (bool * text) := more (replace b) f l.

Lemma state_eq s sv b f i s' sv' b' f' i' : s = s' -> sv = sv' -> b = b' -> f = f' -> i = i' -> Some (State s sv b f i) = Some (State s' sv' b' f' i').
Proof. congruence. Qed.
Lemma replace_app a b : replace (a ++ b) = replace a ++ replace b.
Proof. apply map_app. Qed.
Lemma replace_no_bar t : no_bar t -> replace t = t.
Proof.
  unfold no_bar. induction t as [|c t IH]; [reflexivity|]. cbn. intros N. destruct (Z.eqb_spec c BAR); [tauto|]. f_equal. apply IH. tauto.
Qed.
Lemma replace_clean t : no_bar (replace t).
Proof.
  unfold no_bar, replace. intros I. apply in_map_iff in I as (c & E & _). destruct (Z.eqb_spec c BAR); [discriminate|congruence].
Qed.
Lemma more_more t1 f1 t2 f2 l : more t1 f1 (more t2 f2 l) = more (t1 ++ t2) (f1 || f2) l.
Proof. destruct l as [|[b u] l]; [reflexivity|]. cbn. now rewrite orb_assoc, app_assoc. Qed.
Lemma parts_some a : parts a <> [].
Proof. induction a; cbn; try discriminate; destruct (parts a2) || destruct (parts a); try congruence; destruct p; cbn; discriminate. Qed.
Lemma slices (a : text) (o : Z) (b rest : text) : let s := a ++ o :: b ++ rest in
  firstn (length a + 1) s = a ++ [o] /\ skipn (length a + 1) (firstn (length a + 1 + length b) s) = b /\ skipn (length a + 1 + length b) s = rest.
Proof.
  cbn zeta. replace (a ++ o :: b ++ rest) with ((a ++ [o]) ++ b ++ rest) by now rewrite <- app_assoc.
  replace (length a + 1) with (length (a ++ [o])) by (rewrite app_length; reflexivity). split; [|split].
  - rewrite firstn_app, firstn_all, Nat.sub_diag. cbn. apply app_nil_r.
  - rewrite firstn_app. rewrite firstn_all2 by lia. replace (length (a ++ [o]) + length b - length (a ++ [o])) with (length b) by lia.
    rewrite firstn_app, firstn_all, Nat.sub_diag. cbn [firstn]. rewrite app_nil_r, skipn_app, skipn_all, Nat.sub_diag. reflexivity.
  - rewrite skipn_app. rewrite skipn_all2 by lia. replace (length (a ++ [o]) + length b - length (a ++ [o])) with (length b) by lia.
    cbn [app]. rewrite skipn_app, skipn_all, Nat.sub_diag. reflexivity.
Qed.
Lemma step_plain a o b f sv c rest : ~ In c [124; 44; 40; 41; 91; 93]%Z ->
  step (within a o b f sv (c :: rest)) c = within a o (b ++ [c]) f sv rest.
Proof.
  intros N. cbn in N. unfold step, within, is_open, is_close, BAR, COMMA. cbn [s_new saved start found idx].
  repeat (match goal with |- context [Z.eqb c ?k] => destruct (Z.eqb_spec c k) as [Ek|_]; [exfalso; symmetry in Ek; tauto|] end). cbn [orb andb].
  apply state_eq; [now rewrite <- app_assoc|reflexivity|reflexivity|reflexivity|rewrite app_length; cbn; lia].
Qed.
Lemma step_bar a o b f sv rest : step (within a o b f sv (124%Z :: rest)) 124%Z = within a o (b ++ [124%Z]) true sv rest.
Proof.
  unfold step, within. cbn [s_new saved start found idx]. change (Z.eqb 124 BAR) with true. change (is_close 124) with false. change (is_open 124) with false.
  change (Z.eqb 124 COMMA) with false. cbn [orb andb]. apply state_eq; [now rewrite <- app_assoc|reflexivity|reflexivity|reflexivity|rewrite app_length; cbn; lia].
Qed.
Lemma closing_text a o b f rest : (f = false -> no_bar b) ->
  (if f then (firstn (length a + 1) (a ++ o :: b ++ rest) ++ UNION ++ replace (skipn (length a + 1) (firstn (length a + 1 + length b) (a ++ o :: b ++ rest))) ++
             [93%Z] ++ skipn (length a + 1 + length b) (a ++ o :: b ++ rest), length a + 1 + length b + 7)
   else (a ++ o :: b ++ rest, length a + 1 + length b)) =
  ((a ++ o :: close f b) ++ rest, length (a ++ o :: close f b)).
Proof.
  intros N. destruct (slices a o b rest) as (S1 & S2 & S3). cbn zeta in *. destruct f.
  - rewrite S1, S2, S3. unfold close, part. cbn [fst snd]. f_equal.
    + change UNION with [85; 110; 105; 111; 110; 91]%Z. repeat (rewrite <- app_assoc; cbn [app]). reflexivity.
    + rewrite !app_length. cbn [length app]. rewrite app_length. unfold replace. rewrite map_length. cbn. lia.
  - unfold close, part. cbn [fst snd]. rewrite replace_no_bar by auto. rewrite <- app_assoc. cbn [app]. f_equal. rewrite app_length. cbn. lia.
Qed.
Ltac by_closing L :=
  let K := fresh in pose proof L as K;
  match type of K with ?x = ?y => match goal with |- context [if ?f then ?u else ?v] => change (if f then u else v) with x end end;
  rewrite K; clear K.
Lemma step_comma a o b f sv rest : (f = false -> no_bar b) ->
  step (within a o b f sv (44%Z :: rest)) 44%Z = within (a ++ o :: close f b) 44 [] false sv rest.
Proof.
  intros N. unfold step, within. cbn [s_new saved start found idx]. change (Z.eqb 44 BAR) with false. change (is_close 44) with false. change (is_open 44) with false.
  change (Z.eqb 44 COMMA) with true. cbn [orb andb]. by_closing (closing_text a o b f (44%Z :: rest) N). cbn [length app]. do 2 f_equal. lia.
Qed.
Lemma step_open a o b f sv c rest : In c [40; 91]%Z ->
  step (within a o b f sv (c :: rest)) c = within (a ++ o :: b) c [] false ((length a, f) :: sv) rest.
Proof.
  intros I. unfold step, within. cbn [s_new saved start found idx].
  assert (E : Z.eqb c BAR = false /\ is_close c = false /\ is_open c = true /\ Z.eqb c COMMA = false) by (destruct I as [<-|[<-|[]]]; repeat split).
  destruct E as (-> & -> & -> & ->). cbn [orb andb]. do 2 f_equal.
  - rewrite <- app_assoc. reflexivity.
  - rewrite app_length. cbn. lia.
  - rewrite app_length. cbn. lia.
Qed.
(** closing a bracket: [a0 o0 b0] is the scope outside *)
Lemma step_close a o b f c rest a0 o0 b0 t f0 sv : In c [41; 93]%Z -> (f = false -> no_bar b) ->
  a ++ o :: close f b = a0 ++ o0 :: b0 ++ t ->
  step (within a o b f ((length a0, f0) :: sv) (c :: rest)) c = within a0 o0 (b0 ++ t ++ [c]) f0 sv rest.
Proof.
  intros I N E. unfold step, within. cbn [s_new saved start found idx].
  assert (C : Z.eqb c BAR = false /\ is_close c = true /\ is_open c = false /\ Z.eqb c COMMA = false) by (destruct I as [<-|[<-|[]]]; repeat split).
  destruct C as (-> & -> & -> & ->). cbn [orb andb]. by_closing (closing_text a o b f (c :: rest) N). rewrite E. do 2 f_equal.
  - rewrite <- app_assoc. cbn [app]. now rewrite <- !app_assoc.
  - rewrite !app_length. cbn [length]. rewrite !app_length. cbn. lia.
Qed.

Lemma with_commas_cons t l : l <> [] -> with_commas (t :: l) = t ++ 44%Z :: with_commas l.
Proof. destruct l; [congruence|reflexivity]. Qed.
Lemma more_some t f l : l <> [] -> more t f l <> [].
Proof. destruct l as [|[b u] l]; [congruence|discriminate]. Qed.
Lemma part_clean p : no_bar (snd p) -> no_bar (part p).
Proof.
  unfold no_bar, part. destruct (fst p); [|tauto]. intros N I. rewrite !in_app_iff in I. cbn in I. unfold BAR in *. intuition discriminate.
Qed.
Lemma with_commas_clean l : Forall no_bar l -> no_bar (with_commas l).
Proof.
  induction 1 as [|t l N _ IH]; [intros []|]. destruct l as [|u l]; [exact N|]. rewrite with_commas_cons by discriminate.
  unfold no_bar in *. rewrite in_app_iff. intros [I|[I|I]]; [contradiction|discriminate|contradiction].
Qed.
Lemma more_clean t f l : no_bar t -> Forall (fun p => no_bar (snd p)) l -> Forall (fun p => no_bar (snd p)) (more t f l).
Proof.
  intros N F. destruct l as [|[b u] l]; [constructor|]. inversion F as [|? ? F1 F2]; subst. constructor; [|exact F2]. cbn in *. unfold no_bar in *.
  rewrite in_app_iff. tauto.
Qed.
Lemma parts_clean a : proper a -> Forall (fun p => no_bar (snd p)) (parts a).
Proof.
  induction a as [|c r IH|r IH|r IH|o c i IHi r IHr]; cbn [parts proper].
  - intros _. constructor; [intros []|constructor].
  - intros [N P]. apply more_clean; [|now apply IH]. intros [I|[]]. subst. apply N. now left.
  - intros P. apply more_clean; [|now apply IH]. intros [I|[]]. discriminate.
  - intros P. constructor; [intros []|now apply IH].
  - intros (O & C & PI & PR). apply more_clean; [|now apply IHr]. intros I. destruct I as [I|I]; [subst; destruct O as [O|[O|[]]]; discriminate|].
    apply in_app_iff in I as [I|[I|[]]]; [|subst; destruct C as [C|[C|[]]]; discriminate]. revert I. apply with_commas_clean.
    specialize (IHi PI). rewrite Forall_map. eapply Forall_impl; [|exact IHi]. intros p. apply part_clean.
Qed.

Lemma inside s : proper s -> forall a o b f sv rest, (f = false -> no_bar b) ->
  exists a' o' b' f', fold_left step (new_style s) (within a o b f sv (new_style s ++ rest)) = within a' o' b' f' sv rest /\
    (f' = false -> no_bar b') /\ a' ++ o' :: close f' b' = a ++ o :: with_commas (map part (put_first f b (parts s))).
Proof.
  induction s as [|c r IH|r IH|r IH|o1 c1 i IHi r IHr]; cbn [proper new_style app fold_left].
  - intros _ a o b f sv rest N. exists a, o, b, f. split; [reflexivity|]. split; [exact N|]. unfold put_first. cbn. now rewrite orb_false_r, app_nil_r.
  - intros [C P] a o b f sv rest N. rewrite (step_plain a o b f sv c _ C).
    assert (NC : c <> BAR) by (intros ->; apply C; now left).
    destruct (IH P a o (b ++ [c]) f sv rest) as (a' & o' & b' & f' & E1 & E2 & E3).
    { intros F. unfold no_bar. rewrite in_app_iff. intros [I|[I|[]]]; [exact (N F I)|congruence]. }
    exists a', o', b', f'. split; [exact E1|]. split; [exact E2|]. rewrite E3. unfold put_first. cbn [parts]. rewrite more_more, replace_app, orb_false_r.
    rewrite (replace_no_bar [c]); [reflexivity|]. intros [I|[]]. congruence.
  - intros P a o b f sv rest N. rewrite step_bar.
    destruct (IH P a o (b ++ [124%Z]) true sv rest) as (a' & o' & b' & f' & E1 & E2 & E3); [discriminate|].
    exists a', o', b', f'. split; [exact E1|]. split; [exact E2|]. rewrite E3. unfold put_first. cbn [parts]. rewrite more_more, replace_app, orb_true_r. reflexivity.
  - intros P a o b f sv rest N. rewrite (step_comma a o b f sv _ N).
    destruct (IH P (a ++ o :: close f b) 44%Z [] false sv rest) as (a' & o' & b' & f' & E1 & E2 & E3); [intros _ []|].
    exists a', o', b', f'. split; [exact E1|]. split; [exact E2|]. rewrite E3. unfold put_first. cbn [parts more map]. rewrite orb_false_r, app_nil_r.
    assert (X : more (replace []) false (parts r) = parts r) by (destruct (parts r) as [|[bb uu] ll]; reflexivity). rewrite X.
    rewrite with_commas_cons; [|pose proof (parts_some r); destruct (parts r); [congruence|discriminate]]. rewrite <- app_assoc. reflexivity.
  - intros (O & C & PI & PR) a o b f sv rest N. rewrite <- app_assoc, (step_open a o b f sv o1 _ O). rewrite fold_left_app. cbn [app].
    destruct (IHi PI (a ++ o :: b) o1 [] false ((length a, f) :: sv) (c1 :: new_style r ++ rest)) as (a' & o' & b' & f' & E1 & E2 & E3); [intros _ []|].
    rewrite E1. cbn [fold_left].
    assert (X : put_first false [] (parts i) = parts i) by (unfold put_first; destruct (parts i) as [|[bb uu] ll]; reflexivity). rewrite X in E3.
    set (t := with_commas (map part (parts i))) in *.
    rewrite (step_close a' o' b' f' c1 _ a o b (o1 :: t) f sv C E2); [|rewrite E3, <- app_assoc; reflexivity].
    assert (NT : no_bar ((o1 :: t) ++ [c1])).
    { pose proof (parts_clean (Group o1 c1 i Nil)) as K. cbn [parts proper more] in K. specialize (K (conj O (conj C (conj PI I)))).
      inversion K as [|? ? K1 _]; subst. cbn [snd] in K1. rewrite app_nil_r in K1. exact K1. }
    destruct (IHr PR a o (b ++ (o1 :: t) ++ [c1]) f sv rest) as (a2 & o2 & b2 & f2 & F1 & F2 & F3).
    { intros F. unfold no_bar in *. rewrite in_app_iff. intros [I|I]; [exact (N F I)|exact (NT I)]. }
    exists a2, o2, b2, f2. split; [exact F1|]. split; [exact F2|]. rewrite F3. unfold put_first. cbn [parts]. rewrite more_more, orb_false_r, replace_app.
    rewrite (replace_no_bar _ NT). reflexivity.
Qed.

(** at the top there is no bracket before the text *)
Definition outer (b : text) (f : bool) (rest : text) : option state := Some (State (b ++ rest) [] 0 f (length b)).
Lemma outside s : proper s -> no_comma s -> forall b f rest, (f = false -> no_bar b) ->
  exists b' f', fold_left step (new_style s) (outer b f (new_style s ++ rest)) = outer b' f' rest /\ (f' = false -> no_bar b') /\
    close f' b' = with_commas (map part (put_first f b (parts s))).
Proof.
  induction s as [|c r IH|r IH|r IH|o1 c1 i IHi r IHr]; cbn [proper no_comma new_style app fold_left].
  - intros _ _ b f rest N. exists b, f. split; [reflexivity|]. split; [exact N|]. unfold put_first. cbn. now rewrite orb_false_r, app_nil_r.
  - intros [C P] NC b f rest N.
    assert (S : step (outer b f (c :: new_style r ++ rest)) c = outer (b ++ [c]) f (new_style r ++ rest)).
    { cbn in C. unfold step, outer, is_open, is_close, BAR, COMMA. cbn [s_new saved start found idx].
      repeat (match goal with |- context [Z.eqb c ?k] => destruct (Z.eqb_spec c k) as [Ek|_]; [exfalso; symmetry in Ek; tauto|] end). cbn [orb andb].
      apply state_eq; [now rewrite <- app_assoc|reflexivity|reflexivity|reflexivity|rewrite app_length; cbn; lia]. }
    rewrite S. assert (NB : c <> BAR) by (intros ->; apply C; now left).
    destruct (IH P NC (b ++ [c]) f rest) as (b' & f' & E1 & E2 & E3).
    { intros F. unfold no_bar. rewrite in_app_iff. intros [I|[I|[]]]; [exact (N F I)|congruence]. }
    exists b', f'. split; [exact E1|]. split; [exact E2|]. rewrite E3. unfold put_first. cbn [parts]. rewrite more_more, replace_app, orb_false_r.
    rewrite (replace_no_bar [c]); [reflexivity|]. intros [I|[]]. congruence.
  - intros P NC b f rest N.
    assert (S : step (outer b f (124%Z :: new_style r ++ rest)) 124%Z = outer (b ++ [124%Z]) true (new_style r ++ rest)).
    { unfold step, outer. cbn [s_new saved start found idx]. change (Z.eqb 124 BAR) with true. change (is_close 124) with false. change (is_open 124) with false.
      change (Z.eqb 124 COMMA) with false. cbn [orb andb]. apply state_eq; [now rewrite <- app_assoc|reflexivity|reflexivity|reflexivity|rewrite app_length; cbn; lia]. }
    rewrite S. destruct (IH P NC (b ++ [124%Z]) true rest) as (b' & f' & E1 & E2 & E3); [discriminate|].
    exists b', f'. split; [exact E1|]. split; [exact E2|]. rewrite E3. unfold put_first. cbn [parts]. rewrite more_more, replace_app, orb_true_r. reflexivity.
  - intros _ [].
  - intros (O & C & PI & PR) NC b f rest N. rewrite <- app_assoc. cbn [app].
    assert (S : step (outer b f (o1 :: new_style i ++ c1 :: new_style r ++ rest)) o1 = within b o1 [] false [(0, f)] (new_style i ++ c1 :: new_style r ++ rest)).
    { unfold step, outer, within. cbn [s_new saved start found idx].
      assert (E : Z.eqb o1 BAR = false /\ is_close o1 = false /\ is_open o1 = true /\ Z.eqb o1 COMMA = false) by (destruct O as [<-|[<-|[]]]; repeat split).
      destruct E as (-> & -> & -> & ->). cbn [orb andb app length]. do 2 f_equal. lia. }
    rewrite S, fold_left_app.
    destruct (inside i PI b o1 [] false [(0, f)] (c1 :: new_style r ++ rest)) as (a' & o' & b' & f' & E1 & E2 & E3); [intros _ []|].
    rewrite E1. cbn [fold_left].
    assert (X : put_first false [] (parts i) = parts i) by (unfold put_first; destruct (parts i) as [|[bb uu] ll]; reflexivity). rewrite X in E3.
    set (t := with_commas (map part (parts i))) in *.
    assert (S2 : step (within a' o' b' f' [(0, f)] (c1 :: new_style r ++ rest)) c1 = outer (b ++ (o1 :: t) ++ [c1]) f (new_style r ++ rest)).
    { unfold step, within, outer. cbn [s_new saved start found idx].
      assert (Q : Z.eqb c1 BAR = false /\ is_close c1 = true /\ is_open c1 = false /\ Z.eqb c1 COMMA = false) by (destruct C as [<-|[<-|[]]]; repeat split).
      destruct Q as (-> & -> & -> & ->). cbn [orb andb]. by_closing (closing_text a' o' b' f' (c1 :: new_style r ++ rest) E2). rewrite E3. do 2 f_equal.
      - repeat (rewrite <- app_assoc; cbn [app]). reflexivity.
      - rewrite !app_length. cbn [length]. lia. }
    rewrite S2.
    assert (NT : no_bar ((o1 :: t) ++ [c1])).
    { pose proof (parts_clean (Group o1 c1 i Nil)) as K. cbn [parts proper more] in K. specialize (K (conj O (conj C (conj PI I)))).
      inversion K as [|? ? K1 _]; subst. cbn [snd] in K1. rewrite app_nil_r in K1. exact K1. }
    destruct (IHr PR NC (b ++ (o1 :: t) ++ [c1]) f rest) as (b2 & f2 & F1 & F2 & F3).
    { intros F. unfold no_bar in *. rewrite in_app_iff. intros [I|I]; [exact (N F I)|exact (NT I)]. }
    exists b2, f2. split; [exact F1|]. split; [exact F2|]. rewrite F3. unfold put_first. cbn [parts]. rewrite more_more, orb_false_r, replace_app.
    rewrite (replace_no_bar _ NT). reflexivity.
Qed.

(** C139, partial.  Every annotation is rewritten with "Union[X, Y]" for "X | Y" and otherwise unchanged, however
    deeply nested.  Missing: annotations with strings that contain brackets, commas or bars; refuted below. *)
Theorem C139_unions_partial (a : ann) : proper a -> no_comma a -> rewrite (new_style a) = Some (old_style a).
Proof.
  intros P NC. destruct (outside a P NC [] false []) as (b & f & E1 & E2 & E3); [intros _ []|].
  unfold rewrite. rewrite app_nil_r in E1. unfold outer in E1. cbn [app length] in E1. rewrite E1. cbn [found s_new]. rewrite app_nil_r.
  assert (X : put_first false [] (parts a) = parts a) by (unfold put_first; destruct (parts a) as [|[bb uu] ll]; reflexivity). rewrite X in E3.
  unfold old_style. rewrite <- E3. unfold close, part. cbn [fst snd]. destruct f; [reflexivity|]. now rewrite replace_no_bar by auto.
Qed.
Print Assumptions C139_unions_partial.
(** "A|B[c|d,e]" becomes "Union[A,B[Union[c,d],e]]" *)
Example C139_unions_partial_witness :
  let a := Char 65 (Bar (Char 66 (Group 91 93 (Char 99 (Bar (Char 100 (Comma (Char 101 Nil))))) Nil)))%Z in
  proper a /\ no_comma a /\ new_style a = [65; 124; 66; 91; 99; 124; 100; 44; 101; 93]%Z /\
  rewrite (new_style a) = Some ([85; 110; 105; 111; 110; 91] ++ [65; 44; 66; 91] ++ [85; 110; 105; 111; 110; 91] ++ [99; 44; 100; 93; 44; 101; 93; 93])%Z.
Proof.
  assert (K : forall c, In c [65; 66; 99; 100; 101]%Z -> ~ In c [124; 44; 40; 41; 91; 93]%Z).
  { intros c I J. cbn in I, J. destruct I as [<-|[<-|[<-|[<-|[<-|[]]]]]]; repeat destruct J as [J|J]; discriminate || exact J. }
  cbn zeta. split; [|split; [exact I|split; reflexivity]].
  cbn [proper]. repeat split; try (apply K; cbn; tauto); cbn; tauto.
Qed.

(** C139, violated.  Literal["|"]: a bar within a string is taken for the operator, and the string becomes ",". *)
Theorem C139_strings_refuted : exists a : ann,
  new_style a = [76; 91; 34; 124; 34; 93]%Z /\ old_style a = new_style a /\
  rewrite (new_style a) = Some ([76; 91] ++ [85; 110; 105; 111; 110; 91] ++ [34; 44; 34; 93; 93])%Z.
Proof. exists (Char 76 (Group 91 93 (Char 34 (Char 124 (Char 34 Nil))) Nil))%Z. repeat split; reflexivity. Qed.
Print Assumptions C139_strings_refuted.
