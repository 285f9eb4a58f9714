From Coq Require Import ZArith List Bool Lia ZifyBool ZifyNat.
From Verif Require Import Py Str_Model Str_Proofs Options_Model Options_Spec.
Import ListNotations.
Open Scope Z_scope.

Lemma field_eqb_eq a b : field_eqb a b = true <-> a = b.
Proof. destruct a, b; cbn; split; intro; try reflexivity; try discriminate; congruence. Qed.
Lemma field_dec (a b : field) : {a = b} + {a <> b}. Proof. decide equality. Qed.

Section Values.
Variable V : Type.
Lemma overlay_assoc (a b c : option_set V) f : overlay V a (overlay V b c) f = overlay V (overlay V a b) c f.
Proof. unfold overlay. destruct (c f); reflexivity. Qed.
Lemma overlay_chain (l : list (option_set V)) : forall a f,
  fold_left (overlay V) l a f = last_given (a f :: map (fun o => o f) l).
Proof.
  induction l as [|o l IH]; intros a f; cbn [fold_left map]; [reflexivity|]. rewrite IH. cbn. unfold overlay.
  destruct (last_given (map (fun o => o f) l)); [reflexivity|]. destruct (o f); reflexivity.
Qed.
Lemma from_dict_lookup (src : option_set V) f :
  option_set_from_dict V src f = if existsb (field_eqb f) cmdline_fields then src f else None.
Proof.
  assert (G : forall l (o : option_set V) f, fold_left (fun o f => match src f with Some v => overlay V o (single V f v) | None => o end) l o f =
     if existsb (field_eqb f) l then match src f with Some v => Some v | None => o f end else o f).
  { clear f. induction l as [|g l IH]; intros o f; [reflexivity|]. cbn [fold_left existsb]. rewrite IH.
    destruct (field_eqb f g) eqn:E.
    - apply field_eqb_eq in E. subst g. cbn [orb]. destruct (src f) eqn:S; [|now destruct (existsb _ l)].
      destruct (existsb _ l); [reflexivity|]. unfold overlay, single. now replace (field_eqb f f) with true by (symmetry; now apply field_eqb_eq).
    - cbn [orb]. assert (E2 : field_eqb g f = false). { destruct (field_eqb g f) eqn:X; [|reflexivity]. apply field_eqb_eq in X. subst. rewrite (proj2 (field_eqb_eq f f) eq_refl) in E. discriminate. }
      destruct (src g); [|reflexivity]. unfold overlay, single. now rewrite E2. }
  unfold option_set_from_dict. rewrite G. unfold empty. destruct (existsb _ _), (src f); reflexivity.
Qed.

Variable ws : Z -> bool.
Hypothesis ws_eq : ws eq_ch = false.
Notation run := (run ws).
Notation ws_run := (ws_run ws).
Notation skip_ws := (skip_ws ws).
Notation strip := (strip ws).
Notation word := (word ws).
Notation blank := (blank ws).

Lemma skip_ws_app b s : blank b -> skip_ws (b ++ s) = skip_ws s.
Proof. induction b as [|c b IH]; intro B; [reflexivity|]. inversion B; subst. cbn. rewrite H1. auto. Qed.
Lemma ws_run_app b s : blank b -> (s = [] \/ exists c r, s = c :: r /\ ws c = false) -> ws_run (b ++ s) = (b, s).
Proof.
  intros B S. induction b as [|c b IH].
  - destruct S as [->|(c & r & -> & C)]; cbn; [reflexivity|]. now rewrite C.
  - inversion B; subst. cbn [app Options_Model.ws_run]. rewrite H1, IH by assumption. reflexivity.
Qed.
Lemma run_app w s : Forall (fun c => ws c = false) w -> (s = [] \/ exists c r, s = c :: r /\ ws c = true) -> run (w ++ s) = (w, s).
Proof.
  intros B S. induction w as [|c b IH].
  - destruct S as [->|(c & r & -> & C)]; cbn; [reflexivity|]. now rewrite C.
  - inversion B; subst. cbn [app Options_Model.run]. rewrite H1, IH by assumption. reflexivity.
Qed.
Lemma skip_ws_stop s : match s with c :: _ => ws c = false | [] => True end -> skip_ws s = s.
Proof. destruct s; [reflexivity|]. intro H. cbn. now rewrite H. Qed.
Lemma strip_word b1 w b2 : blank b1 -> blank b2 -> word w -> strip (b1 ++ w ++ b2) = w.
Proof.
  intros B1 B2 (N & W). unfold Options_Model.strip. rewrite skip_ws_app by assumption. rewrite (skip_ws_stop (w ++ b2)).
  2:{ destruct w; [congruence|]. inversion W as [|? ? [W1 _] _]; subst. exact W1. }
  rewrite rev_app_distr, skip_ws_app by (apply Forall_rev; assumption). rewrite skip_ws_stop; [apply rev_involutive|].
  destruct (rev w) as [|c r] eqn:E; [exact I|]. assert (In c (rev w)) by (rewrite E; now left). apply in_rev in H.
  rewrite Forall_forall in W. now apply W.
Qed.
Definition no_eq (s : str) : Prop := Forall (fun c => c <> eq_ch) s.
Lemma split_go n a : forall acc s, no_eq a ->
  (fix go (acc s : str) : list str :=
     match s with
     | [] => [rev acc]
     | c :: r => if c =? eq_ch then rev acc :: split_at_eq n r else go (c :: acc) r
     end) acc (a ++ eq_ch :: s) = (rev acc ++ a) :: split_at_eq n s.
Proof.
  induction a as [|c a IH]; intros acc s N; cbn [app].
  - rewrite Z.eqb_refl, app_nil_r. reflexivity.
  - inversion N; subst. replace (c =? eq_ch) with false by lia. rewrite IH by assumption. cbn [rev]. now rewrite <- app_assoc.
Qed.
Lemma split_go_end n a : forall acc, no_eq a ->
  (fix go (acc s : str) : list str :=
     match s with
     | [] => [rev acc]
     | c :: r => if c =? eq_ch then rev acc :: split_at_eq n r else go (c :: acc) r
     end) acc a = [rev acc ++ a].
Proof.
  induction a as [|c a IH]; intros acc N; [now rewrite app_nil_r|].
  inversion N; subst. replace (c =? eq_ch) with false by lia. rewrite IH by assumption. cbn [rev]. now rewrite <- app_assoc.
Qed.
Lemma split2 a b : no_eq a -> no_eq b -> split_at_eq 2 (a ++ eq_ch :: b) = [a; b].
Proof.
  intros A B. transitivity (a :: split_at_eq 1 b); [exact (split_go 1 a [] b A)|]. f_equal. exact (split_go_end 0 b [] B).
Qed.
Lemma word_no_eq w : word w -> no_eq w.
Proof. intros [_ W]. eapply Forall_impl; [|exact W]. cbn. tauto. Qed.
Lemma blank_no_eq w : blank w -> no_eq w.
Proof. intros W. eapply Forall_impl; [|exact W]. cbn. intros a H E. subst. congruence. Qed.
Lemma no_eq_app a b : no_eq a -> no_eq b -> no_eq (a ++ b). Proof. apply Forall_app_2 || (intros; apply Forall_app; auto). Qed.
Lemma word_run w : word w -> Forall (fun c => ws c = false) w.
Proof. intros [_ W]. eapply Forall_impl; [|exact W]. cbn. tauto. Qed.
Lemma word_head w : word w -> exists c r, w = c :: r /\ ws c = false.
Proof. intros [N W]. destruct w as [|c r]; [congruence|]. inversion W; subst. exists c, r. split; [reflexivity|apply H1]. Qed.
Lemma word_last w : word w -> last_is_eq w = false.
Proof.
  intros [N W]. unfold last_is_eq. destruct (rev w) as [|c r] eqn:E; [reflexivity|].
  assert (I : In c (rev w)) by (rewrite E; now left). apply in_rev in I. rewrite Forall_forall in W. apply W in I. lia.
Qed.

(** The text of one assignment, cut where the expression cuts it *)
Lemma ws_run_skip s : snd (ws_run s) = skip_ws s.
Proof. induction s as [|c s IH]; [reflexivity|]. cbn. destruct (ws c); [|reflexivity]. destruct (ws_run s). exact IH. Qed.
Lemma match1_assign k b1 b2 v r : word k -> blank b1 -> blank b2 -> word v ->
  (r = [] \/ exists c r', r = c :: r' /\ ws c = true) -> match skip_ws r with c :: _ => c <> eq_ch | [] => True end ->
  match1 ws (k ++ b1 ++ [eq_ch] ++ b2 ++ v ++ r) = (k ++ b1 ++ [eq_ch] ++ b2 ++ v, r).
Proof.
  intros K B1 B2 W R R2. unfold match1.
  destruct (word_head v W) as (cv & rv & Ev & Cv).
  assert (VR : exists c r', v ++ r = c :: r' /\ ws c = false /\ c <> eq_ch).
  { exists cv, (rv ++ r). subst v. repeat split; auto. destruct W as [_ W]. inversion W; subst. tauto. }
  assert (NV : ws_run (v ++ r) = ([], v ++ r)) by (apply (ws_run_app [] (v ++ r)); [constructor|right; destruct VR as (c & r' & ? & ? & _); eauto]).
  destruct b1 as [|c1 b1].
  - (* the first run goes on through the equals sign *)
    cbn [app]. destruct b2 as [|c2 b2].
    + cbn [app]. replace (k ++ eq_ch :: v ++ r) with ((k ++ eq_ch :: v) ++ r) by (rewrite <- app_assoc; reflexivity).
      rewrite run_app; [|apply Forall_app; split; [now apply word_run|constructor; [assumption|now apply word_run]]|assumption].
      assert (L : last_is_eq (k ++ eq_ch :: v) = false).
      { generalize (word_last v W). unfold last_is_eq. change (eq_ch :: v) with ([eq_ch] ++ v). rewrite !rev_app_distr.
        destruct (rev v) as [|c t] eqn:E; [|cbn; auto]. apply (f_equal (@rev Z)) in E. rewrite rev_involutive in E. subst v. discriminate. }
      rewrite L. rewrite <- ws_run_skip in R2. destruct (ws_run r) as [w1 t1]. cbn [snd] in R2. destruct t1 as [|d t2]; [reflexivity|].
      destruct (ws_run t2) as [w2 t3]. replace (d =? eq_ch) with false by lia. reflexivity.
    + replace (k ++ eq_ch :: (c2 :: b2) ++ v ++ r) with ((k ++ [eq_ch]) ++ (c2 :: b2) ++ v ++ r) by (rewrite <- app_assoc; reflexivity).
      rewrite run_app; [|apply Forall_app; split; [now apply word_run|constructor; [assumption|constructor]]|].
      2:{ right. exists c2, (b2 ++ v ++ r). split; [reflexivity|]. inversion B2; assumption. }
      rewrite ws_run_app; [|assumption|right; destruct VR as (c & r' & ? & ? & _); eauto].
      destruct VR as (c & r' & E & C & N). rewrite E. destruct (ws_run r') as [w2 t3]. replace (c =? eq_ch) with false by lia. cbn [andb].
      replace (last_is_eq (k ++ [eq_ch])) with true by (unfold last_is_eq; rewrite rev_app_distr; cbn; reflexivity).
      replace (1 <? slen (k ++ [eq_ch])) with true.
      2:{ rewrite slen_app. destruct K as [K _]. destruct k; [congruence|]. rewrite slen_cons. pose proof (slen_nonneg k). change (slen [eq_ch]) with 1. lia. }
      cbn [andb]. rewrite <- E, run_app by (auto using word_run). rewrite <- !app_assoc. reflexivity.
  - rewrite run_app; [|now apply word_run|right; exists c1, (b1 ++ [eq_ch] ++ b2 ++ v ++ r); split; [reflexivity|inversion B1; assumption]].
    rewrite ws_run_app; [|assumption|right; exists eq_ch, (b2 ++ v ++ r); auto]. cbn [app].
    rewrite ws_run_app; [|assumption|right; destruct VR as (c & r' & ? & ? & _); eauto].
    rewrite Z.eqb_refl. replace (0 <? slen (v ++ r)) with true.
    2:{ destruct VR as (c & r' & -> & _). rewrite slen_cons. pose proof (slen_nonneg r'). lia. }
    cbn [andb]. rewrite run_app by (auto using word_run). reflexivity.
Qed.
Lemma assigns_head s kvs : assigns ws s kvs -> match skip_ws s with c :: _ => c <> eq_ch | [] => True end.
Proof.
  intro A. destruct A as [b B|b k b1 b2 v r kvs B K B1 B2 W R A].
  - rewrite <- (app_nil_r b), skip_ws_app by assumption. exact I.
  - rewrite skip_ws_app by assumption. destruct K as [K1 K2]. destruct k as [|c k]; [congruence|]. inversion K2; subst.
    cbn. destruct H1 as [-> H1]. assumption.
Qed.
Definition text_of (x : str * str) (p : str) : Prop :=
  exists b1 b2, blank b1 /\ blank b2 /\ p = fst x ++ b1 ++ [eq_ch] ++ b2 ++ snd x.
Lemma findall_ok s kvs : assigns ws s kvs -> Forall (fun x => word (fst x) /\ word (snd x)) kvs /\
  forall fuel, (length s < fuel)%nat -> exists parts, findall ws fuel s = Ok parts /\ Forall2 text_of kvs parts.
Proof.
  induction 1 as [b B|b k b1 b2 v r kvs B K B1 B2 W R A IH].
  - split; [constructor|]. intros [|fuel] F; [lia|]. cbn [findall]. rewrite <- (app_nil_r b), skip_ws_app by assumption.
    exists []. split; [reflexivity|constructor].
  - destruct IH as [IH1 IH2]. split; [constructor; auto|]. intros [|fuel] F; [lia|]. cbn [findall]. rewrite skip_ws_app by assumption.
    rewrite skip_ws_stop by (destruct (word_head k K) as (c & t & -> & C); exact C).
    destruct (k ++ b1 ++ [eq_ch] ++ b2 ++ v ++ r) as [|c t] eqn:E; [destruct K as [K _]; destruct k; [congruence|discriminate]|]. rewrite <- E.
    rewrite match1_assign; auto; [|eapply assigns_head; eassumption].
    destruct (IH2 fuel) as (parts & P1 & P2).
    { assert (length (b ++ k ++ b1 ++ [eq_ch] ++ b2 ++ v ++ r) < S fuel)%nat as F' by (rewrite E; exact F). clear F.
      rewrite !app_length in F'. cbn [length] in F'. lia. }
    rewrite P1. cbn [bind]. eexists. split; [reflexivity|]. constructor; [|assumption]. exists b1, b2. auto.
Qed.

Variable name : field -> str.
Variable parse_field : field -> str -> option V.
Hypothesis name_inj : forall f g, name f = name g -> f = g.
Hypothesis name_word : forall f, word (name f).

Lemma str_eqb_eq a : forall b, str_eqb a b = true <-> a = b.
Proof.
  induction a as [|x a IH]; intros [|y b]; cbn; split; intro H; try reflexivity; try discriminate.
  - apply andb_prop in H as [H1 H2]. apply IH in H2. apply Z.eqb_eq in H1. congruence.
  - injection H as -> ->. rewrite Z.eqb_refl. now apply IH.
Qed.
Lemma find_field k f : In f directive_fields -> name f = k -> find (fun f => str_eqb k (name f)) directive_fields = Some f.
Proof.
  intros I E. destruct (find _ directive_fields) as [g|] eqn:F.
  - apply find_some in F as [_ F]. apply str_eqb_eq in F. f_equal. apply name_inj. congruence.
  - eapply find_none in F; [|exact I]. cbn in F. rewrite (proj2 (str_eqb_eq k (name f))) in F by congruence. discriminate.
Qed.
(** A part that assigns *)
Definition outcome (o : option_set V) (kv : str * str) : parsed V :=
  match find (fun f => str_eqb (fst kv) (name f)) directive_fields with
  | None => Problem V Unknown
  | Some f => match parse_field f (snd kv) with
              | None => Problem V Invalid
              | Some x => match o f with Some _ => Problem V Twice | None => Parsed V (overlay V o (single V f x)) end
              end
  end.
Lemma parse_part_ok o kv p : word (fst kv) -> word (snd kv) -> text_of kv p ->
  parse_part V ws name parse_field o p = outcome o kv.
Proof.
  destruct kv as [k v]. cbn [fst snd]. intros K W (b1 & b2 & B1 & B2 & ->). cbn [fst snd]. unfold parse_part.
  assert (NE : forall c, existsb (Z.eqb eq_ch) c = false -> str_eqb (k ++ b1 ++ [eq_ch] ++ b2 ++ v) c = false).
  { intros c C. destruct (str_eqb _ c) eqn:E; [|reflexivity]. apply str_eqb_eq in E. subst c.
    rewrite !existsb_app in C. cbn in C. rewrite !orb_true_r in C. discriminate. }
  rewrite (NE on_) by reflexivity. cbv zeta. rewrite (NE off_) by reflexivity.
  replace (k ++ b1 ++ [eq_ch] ++ b2 ++ v) with ((k ++ b1) ++ eq_ch :: (b2 ++ v)) by (rewrite <- app_assoc; reflexivity).
  rewrite split2 by (apply no_eq_app; auto using word_no_eq, blank_no_eq).
  replace (strip (k ++ b1)) with k by (symmetry; apply (strip_word [] k b1); auto; constructor).
  replace (strip (b2 ++ v)) with v.
  2:{ symmetry. rewrite <- (app_nil_r v) at 1. apply strip_word; auto; constructor. }
  reflexivity.
Qed.
Fixpoint outcomes (o : option_set V) (kvs : list (str * str)) : parsed V :=
  match kvs with [] => Parsed V o | kv :: r => match outcome o kv with Parsed _ o => outcomes o r | e => e end end.
Lemma parse_parts_ok kvs : Forall (fun x => word (fst x) /\ word (snd x)) kvs -> forall parts o, Forall2 text_of kvs parts ->
  parse_parts V ws name parse_field o parts = outcomes o kvs.
Proof.
  induction 1 as [|kv kvs [K W] F IH]; intros parts o P; inversion P; subst; [reflexivity|]. cbn [parse_parts outcomes].
  rewrite (parse_part_ok o kv) by assumption. destruct (outcome o kv); [now apply IH|reflexivity].
Qed.
Lemma outcomes_app a b o : outcomes o (a ++ b) = match outcomes o a with Parsed _ o => outcomes o b | e => e end.
Proof. revert o. induction a as [|x a IH]; intro o; [reflexivity|]. cbn. destruct (outcome o x); auto. Qed.
Lemma parse_lines_ok lines kvss : Forall2 (assigns ws) lines kvss -> forall o,
  parse_lines V ws name parse_field o lines = outcomes o (concat kvss).
Proof.
  induction 1 as [|l kvs lines kvss A F IH]; intro o; [reflexivity|]. cbn [parse_lines concat].
  destruct (findall_ok l kvs A) as [W H]. destruct (H (S (length l))) as (parts & P1 & P2); [lia|]. rewrite P1.
  rewrite (parse_parts_ok kvs W parts o P2), outcomes_app. destruct (outcomes o kvs); auto.
Qed.
(** When all is well *)
Definition good (kvs : list (str * str)) (fvs : list (field * V)) : Prop :=
  Forall2 (fun kv fv => In (fst fv) directive_fields /\ name (fst fv) = fst kv /\ parse_field (fst fv) (snd kv) = Some (snd fv)) kvs fvs /\
  NoDup (map fst fvs).
Lemma outcomes_good kvs fvs : Forall2 (fun kv fv => In (fst fv) directive_fields /\ name (fst fv) = fst kv /\ parse_field (fst fv) (snd kv) = Some (snd fv)) kvs fvs ->
  forall o, NoDup (map fst fvs) -> (forall f v, In (f, v) fvs -> o f = None) ->
  exists o', outcomes o kvs = Parsed V o' /\ forall f v, o' f = Some v <-> o f = Some v \/ In (f, v) fvs.
Proof.
  induction 1 as [|[k s] [f x] kvs fvs (I & N & P) F IH]; intros o ND O; cbn [outcomes].
  - exists o. split; [reflexivity|]. intros f v. cbn. tauto.
  - cbn [fst snd] in I, N, P. cbn [map fst] in ND. inversion ND as [|? ? ND1 ND2]; subst. unfold outcome. cbn [fst snd].
    rewrite (find_field (name f) f I eq_refl), P. rewrite (O f x) by now left.
    destruct (IH (overlay V o (single V f x)) ND2) as (o' & E & H).
    { intros g v G. unfold overlay, single. destruct (field_eqb f g) eqn:Fg.
      - apply field_eqb_eq in Fg. subst g. exfalso. apply ND1. apply in_map_iff. exists (f, v). auto.
      - apply (O g v). now right. }
    exists o'. split; [exact E|]. intros g v. rewrite H. unfold overlay, single. cbn [In].
    destruct (field_eqb f g) eqn:Fg.
    + apply field_eqb_eq in Fg. subst g. rewrite (O f x) by now left. split.
      * intros [X|X]; [injection X as ->; auto|auto].
      * intros [X|[X|X]]; [discriminate|injection X as ->; auto|auto].
    + split; [tauto|]. intros [X|[X|X]]; auto. injection X as -> ->. rewrite (proj2 (field_eqb_eq g g) eq_refl) in Fg. discriminate.
Qed.
Lemma outcomes_bad kvs : forall o o', outcomes o kvs = Parsed V o' ->
  exists fvs, Forall2 (fun kv fv => In (fst fv) directive_fields /\ name (fst fv) = fst kv /\ parse_field (fst fv) (snd kv) = Some (snd fv)) kvs fvs /\
    NoDup (map fst fvs) /\ forall f v, In (f, v) fvs -> o f = None.
Proof.
  induction kvs as [|[k s] kvs IH]; intros o o' E; cbn [outcomes] in E.
  - exists []. repeat split; constructor || intros f v [].
  - unfold outcome in E. cbn [fst snd] in E. destruct (find _ directive_fields) as [f|] eqn:Ff; [|discriminate].
    destruct (parse_field f s) as [x|] eqn:P; [|discriminate]. destruct (o f) eqn:Of; [discriminate|].
    destruct (IH _ _ E) as (fvs & F & ND & O). apply find_some in Ff as [I N]. apply str_eqb_eq in N.
    exists ((f, x) :: fvs). split; [constructor; [cbn; auto|assumption]|]. cbn [map fst]. split.
    + constructor; [|assumption]. intro X. apply in_map_iff in X as ([g y] & Eg & Ig). cbn in Eg. subst g.
      specialize (O f y Ig). unfold overlay, single in O. rewrite (proj2 (field_eqb_eq f f) eq_refl) in O. discriminate.
    + intros g y [X|X]; [injection X as -> ->; assumption|]. specialize (O g y X). unfold overlay, single in O.
      destruct (field_eqb f g); [discriminate|assumption].
Qed.
End Values.

(** Floats *)
Lemma rne_le a b M : 0 < b -> a <= M * b -> rne a b <= M.
Proof.
  intros B H. unfold rne. pose proof (Z.div_mod a b ltac:(lia)). pose proof (Z.mod_pos_bound a b B).
  assert (Q : a / b <= M) by (apply Z.div_le_upper_bound; lia).
  destruct (Z.eq_dec (a / b) M) as [E|E].
  - rewrite E in *. assert (a mod b = 0) by nia. rewrite H2. replace (2 * 0 <? b) with true by lia. lia.
  - destruct (2 * _ <? b); [lia|]. destruct (b <? _); [lia|]. destruct (Z.even _); lia.
Qed.
Lemma rne_ge a b M : 0 < b -> M * b <= a -> M <= rne a b.
Proof.
  intros B H. unfold rne. assert (Q : M <= a / b) by (apply Z.div_le_lower_bound; lia).
  destruct (2 * _ <? b); [lia|]. destruct (b <? _); [lia|]. destruct (Z.even _); lia.
Qed.
Lemma rne_exact M b : 0 < b -> rne (M * b) b = M.
Proof. intros B. pose proof (rne_le (M * b) b M B ltac:(lia)). pose proof (rne_ge (M * b) b M B ltac:(lia)). lia. Qed.
(** the exponent is right: a/b is at least 2^(e+52) unless e is the least *)
Lemma ulp_exp_ok a b : 0 < a -> 0 < b -> let e := ulp_exp a b in
  -1074 <= e /\ (e = -1074 \/ (0 <= e + 52 -> b * 2 ^ (e + 52) <= a) /\ (e + 52 < 0 -> b <= a * 2 ^ (- (e + 52)))).
Proof.
  intros A B. unfold ulp_exp. cbv zeta. set (l := Z.log2 a - Z.log2 b).
  set (e := if if 0 <=? l then b * 2 ^ l <=? a else b <=? a * 2 ^ (- l) then l else l - 1).
  split; [lia|]. destruct (Z.max_spec (e - 52) (-1074)) as [[H ->]|[H ->]]; [left; reflexivity|right].
  replace (e - 52 + 52) with e by lia. unfold e.
  pose proof (Z.log2_spec a A) as [LA1 LA2]. pose proof (Z.log2_spec b B) as [LB1 LB2].
  pose proof (Z.log2_nonneg a). pose proof (Z.log2_nonneg b).
  destruct (0 <=? l) eqn:L.
  - destruct (b * 2 ^ l <=? a) eqn:C; [split; [lia|lia]|].
    split; intro.
    + assert (E : 2 ^ Z.log2 a = 2 ^ (l - 1) * 2 ^ Z.succ (Z.log2 b)) by (rewrite <- Z.pow_add_r by lia; f_equal; lia).
      assert (0 < 2 ^ (l - 1)) by (apply Z.pow_pos_nonneg; lia). nia.
    + assert (l = 0) by lia. replace (- (l - 1)) with 1 by lia. change (2 ^ 1) with 2.
      assert (E : 2 ^ Z.succ (Z.log2 b) = 2 * 2 ^ Z.log2 a) by (rewrite Z.pow_succ_r by lia; do 2 f_equal; lia). lia.
  - destruct (b <=? a * 2 ^ (- l)) eqn:C; [split; [lia|lia]|].
    split; [lia|]. intros _.
    assert (E : 2 ^ (- (l - 1)) * 2 ^ Z.log2 a = 2 ^ Z.succ (Z.log2 b)) by (rewrite <- Z.pow_add_r by lia; f_equal; lia).
    assert (0 < 2 ^ (- (l - 1))) by (apply Z.pow_pos_nonneg; lia). nia.
Qed.
Lemma fl_pos a b : 0 <= a -> 0 < b -> 0 <= fst (fl a b) /\ 0 < snd (fl a b).
Proof.
  intros A B. unfold fl. destruct (a =? 0) eqn:Z0; [cbn; lia|]. cbv zeta. destruct (0 <=? ulp_exp a b) eqn:E; cbn [fst snd].
  - assert (P : 0 < 2 ^ ulp_exp a b) by (apply Z.pow_pos_nonneg; lia).
    pose proof (rne_ge a (b * 2 ^ ulp_exp a b) 0 ltac:(nia) ltac:(lia)). split; [nia|lia].
  - assert (P : 0 < 2 ^ (- ulp_exp a b)) by (apply Z.pow_pos_nonneg; lia).
    pose proof (rne_ge (a * 2 ^ (- ulp_exp a b)) b 0 ltac:(lia) ltac:(nia)). split; [lia|lia].
Qed.
Lemma pow_split x y : 0 <= x -> 0 <= y -> 2 ^ (x + y) = 2 ^ x * 2 ^ y. Proof. intros. now apply Z.pow_add_r. Qed.
(** Rounding never passes a float *)
Lemma fl_le a b c d : 0 <= a -> 0 < b -> is_float c d -> frac_le (a, b) (c, d) -> frac_le (fl a b) (c, d).
Proof.
  intros A B (C & D & m & j & M & J & R). unfold frac_le. cbn [fst snd]. intro H.
  unfold fl. destruct (a =? 0) eqn:Z0; [cbn; lia|].
  assert (A' : 0 < a) by lia. destruct (ulp_exp_ok a b A' B) as (E0 & E1). cbv zeta. set (e := ulp_exp a b) in *.
  (* the last place of the result is no coarser than the bound's *)
  assert (EJ : e <= j).
  { destruct E1 as [E1|[E1 E2]]; [lia|]. destruct (Z.le_gt_cases e j) as [|G]; [assumption|]. exfalso.
    change (2 ^ 53) with (2 * 2 ^ 52) in M.
    destruct (Z.le_gt_cases 0 (e + 52)) as [P|P].
    - specialize (E1 P). destruct (0 <=? j) eqn:SJ.
      + assert (X : 2 ^ (e + 52) = 2 ^ (e - j - 1) * 2 * 2 ^ 52 * 2 ^ j).
        { change 2 with (2 ^ 1) at 3. rewrite <- !pow_split by lia. f_equal. lia. }
        assert (0 < 2 ^ (e - j - 1)) by (apply Z.pow_pos_nonneg; lia). assert (0 < 2 ^ j) by (apply Z.pow_pos_nonneg; lia).
        assert (b * 2 ^ (e + 52) * d <= m * 2 ^ j * d * b) by (subst c; nia).
        assert (2 ^ (e + 52) <= m * 2 ^ j). { apply (Z.mul_le_mono_pos_r _ _ (b * d)); [nia|]. nia. }
        assert (2 * 2 ^ 52 * 2 ^ j <= 2 ^ (e + 52)). { rewrite X. assert (1 <= 2 ^ (e - j - 1)) by lia. assert (0 < 2 * 2 ^ 52 * 2 ^ j) by lia. nia. }
        nia.
      + assert (0 < 2 ^ (- j)) by (apply Z.pow_pos_nonneg; lia).
        assert (X : 2 ^ (e + 52) * 2 ^ (- j) = 2 ^ (e - j - 1) * (2 * 2 ^ 52)).
        { change (2 * 2 ^ 52) with (2 ^ 53). rewrite <- !pow_split by lia. f_equal. lia. }
        assert (0 < 2 ^ (e - j - 1)) by (apply Z.pow_pos_nonneg; lia).
        assert (b * 2 ^ (e + 52) * d <= c * b) by nia.
        assert (2 ^ (e + 52) * d <= c) by nia.
        assert (2 ^ (e + 52) * 2 ^ (- j) * d <= m * d) by nia.
        assert (2 ^ (e + 52) * 2 ^ (- j) <= m) by nia. nia.
    - specialize (E2 P). assert (SJ : (0 <=? j) = false) by lia. rewrite SJ in R.
      assert (0 < 2 ^ (- (e + 52))) by (apply Z.pow_pos_nonneg; lia).
      assert (X : 2 ^ (- j) = 2 ^ (- (e + 52)) * 2 ^ (e - j - 1) * (2 * 2 ^ 52)).
      { change (2 * 2 ^ 52) with (2 ^ 53). rewrite <- !pow_split by lia. f_equal. lia. }
      assert (0 < 2 ^ (e - j - 1)) by (apply Z.pow_pos_nonneg; lia).
      set (u := 2 ^ (- (e + 52))) in *. set (w := 2 ^ (e - j - 1)) in *.
      (* d <= c*u  since  b <= a*u and a*d <= c*b *)
      assert (Y : d <= c * u).
      { assert (b * d <= a * u * d) by nia. assert (a * d * u <= c * b * u) by nia. assert (b * d <= b * (c * u)) by nia. nia. }
      assert (m * d = c * u * (w * (2 * 2 ^ 52))) by (rewrite <- R, X; ring).
      assert (d * (2 * 2 ^ 52) <= m * d).
      { rewrite H2. assert (1 * (2 * 2 ^ 52) <= w * (2 * 2 ^ 52)) by lia. nia. }
      nia. }
  destruct (0 <=? e) eqn:SE.
  - assert (SJ : (0 <=? j) = true) by lia. rewrite SJ in R. cbn [fst snd].
    assert (0 < 2 ^ e) by (apply Z.pow_pos_nonneg; lia).
    assert (X : 2 ^ j = 2 ^ (j - e) * 2 ^ e) by (rewrite <- pow_split by lia; f_equal; lia).
    pose proof (rne_le a (b * 2 ^ e) (m * 2 ^ (j - e)) ltac:(nia)) as L.
    assert (H1 : a <= m * 2 ^ (j - e) * (b * 2 ^ e)). { replace (m * 2 ^ (j - e) * (b * 2 ^ e)) with (m * 2 ^ j * b) by (rewrite X; ring). subst c. nia. }
    specialize (L H1). subst c. rewrite X.
    assert (K : rne a (b * 2 ^ e) * (2 ^ e * d) <= m * 2 ^ (j - e) * (2 ^ e * d)) by (apply Z.mul_le_mono_nonneg_r; [nia|exact L]).
    replace (m * (2 ^ (j - e) * 2 ^ e) * d * 1) with (m * 2 ^ (j - e) * (2 ^ e * d)) by ring. rewrite <- Z.mul_assoc. exact K.
  - cbn [fst snd]. assert (0 < 2 ^ (- e)) by (apply Z.pow_pos_nonneg; lia).
    assert (Y : exists M', c * 2 ^ (- e) = M' * d).
    { destruct (0 <=? j) eqn:SJ.
      - exists (m * 2 ^ j * 2 ^ (- e)). subst c. ring.
      - exists (m * 2 ^ (j - e)). assert (X : 2 ^ (- e) = 2 ^ (- j) * 2 ^ (j - e)) by (rewrite <- pow_split by lia; f_equal; lia).
        rewrite X, Z.mul_assoc, R. ring. }
    destruct Y as (M' & Y).
    assert (L : rne (a * 2 ^ (- e)) b <= M').
    { apply rne_le; [assumption|]. apply (Z.mul_le_mono_pos_r _ _ d); [lia|]. nia. }
    nia.
Qed.
Lemma int_is_float m : 0 <= m < 2 ^ 53 -> is_float m 1.
Proof. intros H. split; [lia|]. split; [lia|]. exists m, 0. cbn [Z.leb Z.compare]. change (2 ^ 0) with 1. repeat split; lia. Qed.
Lemma split_ok m p q : 0 <= m < 2 ^ 53 -> 0 <= p <= q -> 0 < q ->
  let '(m1, m2) := split_iterations m (p, q) in m1 + m2 = m /\ 0 <= m1 <= m /\ 0 <= m2 <= m.
Proof.
  intros M P Q. unfold split_iterations.
  pose proof (fl_pos m 1 ltac:(lia) ltac:(lia)) as F1. pose proof (fl_le m 1 m 1 ltac:(lia) ltac:(lia) (int_is_float m M)) as L1.
  destruct (fl m 1) as [x y]. cbn [fst snd] in *. specialize (L1 ltac:(unfold frac_le; cbn; lia)). unfold frac_le in L1. cbn [fst snd] in L1.
  pose proof (fl_pos (x * p) (y * q) ltac:(nia) ltac:(nia)) as F2.
  pose proof (fl_le (x * p) (y * q) m 1 ltac:(nia) ltac:(nia) (int_is_float m M)) as L2.
  destruct (fl (x * p) (y * q)) as [u v]. cbn [fst snd] in *. unfold frac_le in L2. cbn [fst snd] in L2.
  assert (L : u * 1 <= m * v) by (apply L2; nia).
  pose proof (rne_le u v m ltac:(lia) ltac:(lia)). pose proof (rne_ge u v 0 ltac:(lia) ltac:(lia)). lia.
Qed.
Lemma fmul_le a b p q : is_float a b -> 0 <= p <= q -> 0 < q ->
  exists x y, fmul (Fin a b) (p, q) = Fin x y /\ 0 <= x /\ 0 < y /\ frac_le (x, y) (a, b).
Proof.
  intros F P Q. pose proof F as (A & B & _). cbn [fmul fst snd].
  pose proof (fl_pos (a * p) (b * q) ltac:(nia) ltac:(nia)) as F2. pose proof (fl_le (a * p) (b * q) a b ltac:(nia) ltac:(nia) F) as L.
  destruct (fl (a * p) (b * q)) as [x y]. exists x, y. cbn [fst snd] in F2. split; [reflexivity|]. split; [lia|]. split; [lia|].
  apply L. unfold frac_le. cbn. nia.
Qed.
Lemma inv_priority_ok p q : 0 <= p <= q -> 0 < q -> 0 <= fst (inv_priority (p, q)) <= snd (inv_priority (p, q)) /\ 0 < snd (inv_priority (p, q)).
Proof.
  intros P Q. unfold inv_priority. cbn [fst snd]. pose proof (fl_pos (q - p) q ltac:(lia) Q).
  pose proof (fl_le (q - p) q 1 1 ltac:(lia) Q (int_is_float 1 ltac:(lia))) as L. unfold frac_le in L. cbn [fst snd] in L. specialize (L ltac:(lia)). lia.
Qed.

Lemma field_name_inj f g : field_name f = field_name g -> f = g.
Proof. destruct f, g; vm_compute; intro H; try reflexivity; discriminate. Qed.
Lemma ascii_word (s : str) : s <> [] -> forallb (fun c => (33 <=? c) && (c <=? 126) && negb (c =? 61)) s = true -> Options_Spec.word py_ws s.
Proof.
  intros N H. split; [exact N|]. rewrite forallb_forall in H. apply Forall_forall. intros c I. specialize (H c I). unfold py_ws, eq_ch. lia.
Qed.
Lemma field_name_word f : Options_Spec.word py_ws (field_name f).
Proof. apply ascii_word; destruct f; try discriminate; reflexivity. Qed.
