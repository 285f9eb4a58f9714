(** Docstrings read back the contracts they were written with. *)
From Coq Require Import ZArith List Bool Lia.
From Verif Require Import Docstring_Model Docstring_Spec.
Import ListNotations.
Open Scope Z_scope.

Section P.
Variable space word : Z -> bool.
Hypothesis U : usual space word.
Notation blank := (blank space).
Notation trimmed := (trimmed space).
Notation span := (Docstring_Model.span).
Notation strip := (strip space).
Notation header := (header space word).

Definition solid (s : str) : Prop := match s with [] => True | c :: _ => space c = false end.

Lemma span_app : forall i r, blank i -> solid r -> span space (i ++ r) = (i, r).
Proof.
  induction i as [|c i IH]; intros r B S0.
  - destruct r as [|c r]; cbn in *; [reflexivity|]. now rewrite S0.
  - inversion B; subst. cbn. rewrite H1. now rewrite IH.
Qed.
Lemma span_any f : forall s, s = fst (span f s) ++ snd (span f s) /\ Forall (fun c => f c = true) (fst (span f s)) /\
  match snd (span f s) with [] => True | c :: _ => f c = false end.
Proof.
  induction s as [|c s IH]; cbn; [repeat split; constructor|].
  destruct (f c) eqn:E; cbn.
  - destruct (span f s) as [a b]; cbn in *. destruct IH as (A & B & C).
    split; [now rewrite <- A|]. split; [now constructor|exact C].
  - repeat split; [constructor|exact E].
Qed.
Lemma blank_rev : forall s, blank s -> blank (rev s).
Proof. intros s B. apply Forall_rev. exact B. Qed.
Lemma lstrip_app : forall i r, blank i -> solid r -> lstrip space (i ++ r) = r.
Proof. intros. unfold lstrip. now rewrite span_app. Qed.
Lemma strip_blank : forall s, blank s -> strip s = [].
Proof.
  intros s B. unfold Docstring_Model.strip.
  replace s with (s ++ []) by apply app_nil_r. rewrite lstrip_app; [reflexivity|exact B|exact I].
Qed.
Lemma strip_text : forall i e t, blank i -> trimmed e -> blank t -> strip (i ++ e ++ t) = e.
Proof.
  intros i e t Bi [Te Te'] Bt. destruct e as [|c e].
  - cbn [app]. apply strip_blank. apply Forall_app. now split.
  - unfold Docstring_Model.strip. rewrite lstrip_app; [|exact Bi|exact Te].
    rewrite rev_app_distr. rewrite lstrip_app; [|now apply blank_rev|exact Te'].
    apply rev_involutive.
Qed.
Lemma strip_nil : forall s, strip s = [] -> blank s.
Proof.
  intros s H. unfold Docstring_Model.strip, lstrip in H.
  destruct (span_any space s) as (A & B & C).
  set (a := fst (span space s)) in *. set (b := snd (span space s)) in *.
  destruct (span_any space (rev b)) as (A' & B' & C').
  apply (f_equal (@rev Z)) in H. rewrite rev_involutive in H. cbn in H. rewrite H in A'.
  rewrite app_nil_r in A'.
  destruct b as [|c b]; [rewrite A, app_nil_r; exact B|].
  exfalso. rewrite <- A' in B'. cbn in B', C. apply Forall_app in B'. destruct B' as [_ B'].
  inversion B'; congruence.
Qed.

Lemma after_app : forall p s, after p (p ++ s) = Some s.
Proof. induction p as [|a p IH]; intros; cbn; [reflexivity|]. now rewrite Z.eqb_refl. Qed.
Lemma after_some : forall p s r, after p s = Some r -> s = p ++ r.
Proof.
  induction p as [|a p IH]; intros s r H; cbn in H; [now inversion H|].
  destruct s as [|b s]; [discriminate|]. destruct (Z.eqb_spec a b); [|discriminate]. subst.
  cbn. now rewrite (IH _ _ H).
Qed.
Lemma take_keyword_app : forall k s, take_keyword (title k ++ s) = Some (k, s).
Proof. intros [] s; reflexivity. Qed.
Lemma take_keyword_some : forall s k r, take_keyword s = Some (k, r) -> s = title k ++ r.
Proof.
  intros s k r H. unfold take_keyword in H.
  destruct (after (keyword Post) s) eqn:E1; [inversion H; subst; now apply (after_some (title _))|].
  destruct (after (keyword Pre) s) eqn:E2; [inversion H; subst; now apply (after_some (title _))|].
  destruct (after (keyword Raises) s) eqn:E3; [inversion H; subst; now apply (after_some (title _))|].
  destruct (after (keyword Inv) s) eqn:E4; cbn in H; [inversion H; subst; now apply (after_some (title _))|discriminate].
Qed.

Lemma no_header_none : forall l, no_header space l -> header l = None.
Proof.
  intros l N. unfold Docstring_Model.header.
  destruct (span_any space l) as (A & B & _).
  destruct (span space l) as [ind r]; cbn in A, B.
  match goal with |- match take_keyword ?q with _ => _ end = _ => set (r1 := q) end.
  destruct (take_keyword r1) as [[k r2]|] eqn:T; [|reflexivity].
  apply take_keyword_some in T.
  assert (F : forall c r', r2 = c :: r' -> c = 58 \/ c = 91 -> False).
  { intros c r' -> O. destruct (N ind k c r' B O) as [N1 N2].
    destruct r as [|c0 r0]; [subst r1; destruct k; discriminate T|].
    subst r1. destruct (Z.eqb_spec c0 58).
    - apply N2. rewrite A, T. now subst.
    - apply N1. now rewrite A, T. }
  destruct r2 as [|c r']; [reflexivity|].
  destruct (Z.eqb_spec c 91); [exfalso; eapply F; eauto|].
  destruct (Z.eqb_spec c 58); [exfalso; eapply F; eauto|]. reflexivity.
Qed.

Lemma span_names : forall b r, Forall (fun c => word c = true \/ space c = true \/ c = 44 \/ c = 46) b ->
  span (fun c => word c || space c || (c =? 44) || (c =? 46)) (b ++ 93 :: r) = (b, 93 :: r).
Proof.
  destruct U as (_ & _ & _ & _ & _ & S93 & W93 & _).
  induction b as [|c b IH]; intros r F; cbn.
  - rewrite W93, S93. reflexivity.
  - inversion F; subst. rewrite IH by assumption.
    replace (word c || space c || (c =? 44) || (c =? 46)) with true; [reflexivity|].
    symmetry. destruct H1 as [X | [X | [X | X]]]; rewrite X; cbn; rewrite ?orb_true_r; reflexivity.
Qed.

Lemma header_any : forall h gap e trail,
  blank (h_indent h) ->
  match h_names h with Some b => Forall (fun c => word c = true \/ space c = true \/ c = 44 \/ c = 46) b | None => True end ->
  blank gap -> blank trail -> trimmed e ->
  match e with [] => True | c :: _ => c <> 58 end ->
  header (head_text h ++ gap ++ e ++ trail) = Some (blen (h_indent h), h_section h, h_names h, e).
Proof.
  intros [ind col k nm dbl] gap e trail Bi Bn Bg Bt Te Ne. cbn in Bi, Bn.
  pose proof U as (_ & S58 & _ & _ & S35 & S93 & W93 & SK).
  unfold head_text; cbn [h_indent h_colon h_section h_names h_double].
  remember (gap ++ e ++ trail) as tail eqn:Et.
  assert (Ht : strip tail = e) by (rewrite Et; now apply strip_text).
  assert (Hc : match tail with [] => True | c :: _ => c <> 58 end).
  { rewrite Et. destruct gap as [|g gap]; cbn.
    - destruct e as [|c e]; cbn; [|exact Ne].
      destruct trail as [|c trail]; [exact I|]. inversion Bt; subst. intros ->. congruence.
    - inversion Bg; subst. intros ->. congruence. }
  clear Et.
  rewrite <- !app_assoc.
  unfold Docstring_Model.header.
  rewrite span_app; [|exact Bi|destruct col; [exact S58|destruct k; cbn; [apply (SK Post)|apply (SK Pre)|apply (SK Raises)|apply (SK Inv)]; left; reflexivity]].

  assert (K : forall s : str, (match (if col then [58] else []) ++ title k ++ s with c :: r' => if c =? 58 then r' else (if col then [58] else []) ++ title k ++ s | [] => (if col then [58] else []) ++ title k ++ s end) = title k ++ s)
    by (intros; destruct col; destruct k; reflexivity).
  rewrite K, take_keyword_app.
  assert (C : forall b : option str, (match [58] ++ (if dbl then [58] else []) ++ tail with
        | c :: r' => if c =? 58 then
                       let r' := match r' with d :: r'' => if d =? 58 then r'' else r' | [] => r' end in
                       Some (Z.of_nat (length ind), k, b, strip r')
                     else None
        | [] => None
        end) = Some (blen ind, k, b, e)).
  { intros b. cbn [app]. change (58 =? 58) with true. cbv iota zeta. destruct dbl; cbn [app].
    - change (58 =? 58) with true. cbv iota. now rewrite Ht.
    - destruct tail as [|c tail]; [now rewrite Ht|].
      destruct (Z.eqb_spec c 58); [contradiction|]. now rewrite Ht. }
  destruct nm as [b|].
  - cbn [app].
    change (91 =? 91) with true. cbv iota.
    rewrite <- app_assoc. cbn [app].
    rewrite span_names by exact Bn. change (93 =? 93) with true. cbv iota. apply C.
  - cbn [app]. change (58 =? 91) with false. cbv iota. apply C.
Qed.
Lemma header_head : forall wanted h gap e trail,
  good_head space word wanted h -> blank gap -> blank trail -> trimmed e ->
  match e with [] => True | c :: _ => c <> 58 end ->
  header (head_text h ++ gap ++ e ++ trail) = Some (blen (h_indent h), h_section h, h_names h, e).
Proof.
  intros wanted h gap e trail (Bi & _ & Bn) Bg Bt Te Ne. apply header_any; auto.
  destruct (h_names h); [exact (proj2 Bn)|exact I].
Qed.

Lemma number_app : forall a n b, number n (a ++ b) = number n a ++ number (n + blen a) b.
Proof.
  unfold blen. induction a as [|x a IH]; intros n b; cbn [number app].
  - cbn. now rewrite Z.add_0_r.
  - rewrite IH. replace (n + Z.of_nat (length (x :: a))) with (n + 1 + Z.of_nat (length a)) by (cbn [length]; lia). reflexivity.
Qed.
Lemma has_expr_comment : forall e, trimmed e -> match e with [] => True | c :: _ => c = 35 end -> has_expr space e = false.
Proof.
  intros e T H. unfold has_expr. replace e with ([] ++ e ++ []) by (cbn; apply app_nil_r).
  rewrite strip_text; [|constructor|exact T|constructor]. destruct e as [|c e]; [reflexivity|]. now subst c.
Qed.
Lemma has_expr_expr : forall e, trimmed e -> match e with [] => False | c :: _ => c <> 35 end -> has_expr space e = true.
Proof.
  intros e T H. unfold has_expr. replace e with ([] ++ e ++ []) by (cbn; apply app_nil_r).
  rewrite strip_text; [|constructor|exact T|constructor]. destruct e as [|c e]; [contradiction|].
  destruct (Z.eqb_spec c 35); [contradiction|reflexivity].
Qed.

Notation plines := (parse_lines space word).
Lemma skip_blank : forall w cur n l ls p, blank l -> plines w cur ((n, l) :: ls) p = plines w cur ls p.
Proof. intros. cbn [parse_lines]. now rewrite strip_blank. Qed.
(** a line that is not under the section that is open *)
Lemma closes : forall w cur n l ls p,
  match cur with Some (_, ind) => indent_of space l <= ind | None => True end ->
  strip l <> [] -> plines w cur ((n, l) :: ls) p = plines w None ((n, l) :: ls) p.
Proof.
  intros w cur n l ls p O N. cbn [parse_lines]. destruct (strip l) as [|c r] eqn:E; [contradiction|].
  destruct cur as [[k ind]|]; [|reflexivity].
  unfold section_line. unfold indent_of, blen in O.
  replace (Z.of_nat (length (fst (span space l))) >? ind) with false; [reflexivity|].
  symmetry. rewrite Z.gtb_ltb. apply Z.ltb_ge. exact O.
Qed.
(** a line under the section *)
Lemma under : forall w k ind n i e t ls p,
  blank i -> blank t -> ind < blen i -> trimmed e -> e <> [] ->
  plines w (Some (k, ind)) ((n, i ++ e ++ t) :: ls) p =
  plines w (Some (k, ind)) ls (if has_expr space e then mkParse (messages p) (sections p ++ [(k, n, e)]) (mutable_expr p) else p).
Proof.
  intros w k ind n i e t ls p Bi Bt L T N. cbn [parse_lines].
  assert (X : strip (i ++ e ++ t) = e) by (now apply strip_text). rewrite X.
  destruct e as [|c e]; [contradiction|].
  unfold section_line. rewrite X.
  rewrite span_app; [|exact Bi|exact (proj1 T)]. cbn [fst].
  unfold blen in L. replace (Z.of_nat (length i) >? ind) with true; [reflexivity|].
  symmetry. rewrite Z.gtb_ltb. apply Z.ltb_lt. exact L.
Qed.
Lemma body_ok : forall w k ind b n ls p, Forall (good_body space ind) b ->
  plines w (Some (k, ind)) (number n (map body_text b) ++ ls) p =
  plines w (Some (k, ind)) ls (mkParse (messages p) (sections p ++ body_entries k n b) (mutable_expr p)).
Proof.
  intros w k ind. induction b as [|x b IH]; intros n ls p F.
  - cbn. rewrite app_nil_r. now destruct p.
  - inversion F as [|? ? G F']; subst. cbn [map number app].
    destruct x as [i e t|i c t|l]; cbn [body_text body_entries]; cbn in G.
    + destruct G as (Bi & Bt & L & T & N).
      rewrite under; auto; [|destruct e; [contradiction|discriminate]].
      rewrite has_expr_expr by auto. rewrite IH by exact F'. cbn. now rewrite <- app_assoc.
    + destruct G as (Bi & Bt & L & T). change ([35] ++ c ++ t) with ((35 :: c) ++ t).
      rewrite under; auto; [|discriminate].
      rewrite has_expr_comment; [|exact T|reflexivity]. now rewrite IH.
    + rewrite skip_blank by exact G. now rewrite IH.
Qed.

Lemma wanted_eqb : forall k w, In k w -> existsb (section_eqb k) w = true.
Proof. intros k w H. apply existsb_exists. exists k. split; [exact H|now destruct k]. Qed.
Lemma head_line : forall h r, good_head space word [] h \/ blank (h_indent h) -> 
  indent_of space (head_text h ++ r) = blen (h_indent h) /\ strip (head_text h ++ r) <> [].
Proof.
  intros [ind col k nm dbl] r B0.
  assert (B : blank ind) by (destruct B0 as [[B _]|B]; exact B). clear B0.
  pose proof U as (_ & S58 & _ & _ & _ & _ & _ & SK).
  unfold head_text; cbn [h_indent h_colon h_section h_names h_double].
  rewrite <- !app_assoc.
  match goal with |- indent_of _ (ind ++ ?q) = _ /\ _ => set (q0 := q) end.
  assert (Q : match q0 with [] => False | c :: _ => space c = false end).
  { unfold q0. destruct col; [exact S58|]. destruct k; cbn; [apply (SK Post)|apply (SK Pre)|apply (SK Raises)|apply (SK Inv)]; left; reflexivity. }
  assert (Q' : solid q0) by (destruct q0; [exact I|exact Q]).
  split.
  - unfold indent_of. now rewrite span_app.
  - intros E. apply strip_nil in E. apply Forall_app in E. destruct E as [_ E].
    destruct q0 as [|c q]; [contradiction|]. inversion E; congruence.
Qed.

Definition or_else (a : option str) (l : list str) : option str := match a with Some _ => a | None => hd_error l end.
Lemma item_ok : forall w cur i n ls p,
  good_item space word w i -> ~ blank_item space i ->
  match cur with Some (_, ind) => starts_at space i <= ind | None => True end ->
  (match mutable_expr p with Some _ => names [i] = [] | None => True end) ->
  plines w cur (number n (item_lines i) ++ ls) p =
  plines w (match i with Block h _ _ _ _ => Some (h_section h, blen (h_indent h)) | _ => None end) ls
    (mkParse (messages p) (sections p ++ item_entries n i) (or_else (mutable_expr p) (names [i]))).
Proof.
  intros w cur i n ls p G NB O M.
  destruct i as [l|h gap e trail|h gap com trail b]; cbn [item_lines number app item_entries].
  - cbn in NB, O, G.
    assert (SN : strip l <> []) by (intros E; apply NB; now apply strip_nil).
    rewrite closes; [|destruct cur as [[? ?]|]; exact O|exact SN].
    cbn [parse_lines]. destruct (strip l) as [|c r]; [contradiction|].
    rewrite no_header_none by exact G. rewrite app_nil_r.
    destruct p as [ms ss me]; cbn. destruct me; reflexivity.
  - cbn in G, O. destruct G as (H & Bg & Bt & (T & N)).
    destruct (head_line h (gap ++ e ++ trail)) as [I1 I2]; [right; exact (proj1 H)|].
    rewrite closes; [|destruct cur as [[? ?]|]; [now rewrite I1|exact I]|exact I2].
    cbn [parse_lines]. destruct (strip (head_text h ++ gap ++ e ++ trail)) as [|c r]; [contradiction|]. clear I1 I2.
    rewrite (header_head w); auto; [|destruct e; [exact I|apply N]].
    destruct H as (_ & Hw & Hn). rewrite wanted_eqb by exact Hw. cbn [negb].
    assert (HE : has_expr space e = true) by (apply has_expr_expr; [exact T|destruct e; [contradiction|apply N]]).
    rewrite HE.
    unfold names in M |- *; cbn [flat_map] in M |- *. destruct (h_names h) as [nm|]; cbn [app] in M |- *.
    + destruct Hn as [-> _]. cbn [section_eqb negb].
      destruct p as [ms ss me]; cbn in M |- *. destruct me; [discriminate M|]. reflexivity.
    + destruct p as [ms ss me]; cbn in M |- *. destruct me; reflexivity.
  - cbn in G, O. destruct G as (H & Bg & Bt & T & N & F).
    destruct (head_line h (gap ++ com ++ trail)) as [I1 I2]; [right; exact (proj1 H)|].
    rewrite closes; [|destruct cur as [[? ?]|]; [now rewrite I1|exact I]|exact I2].
    cbn [parse_lines]. destruct (strip (head_text h ++ gap ++ com ++ trail)) as [|c r]; [contradiction|]. clear I1 I2.
    rewrite (header_head w); auto; [|destruct com; [exact I|subst; discriminate]].
    destruct H as (_ & Hw & Hn). rewrite wanted_eqb by exact Hw. cbn [negb].
    rewrite has_expr_comment by assumption.
    unfold names in M |- *; cbn [flat_map] in M |- *. destruct (h_names h) as [nm|]; cbn [app] in M |- *.
    + destruct Hn as [-> _]. cbn [section_eqb negb].
      destruct p as [ms ss me]; cbn in M |- *. destruct me; [discriminate M|]. now rewrite body_ok.
    + destruct p as [ms ss me]; cbn in M |- *. rewrite body_ok by exact F. destruct me; reflexivity.
Qed.

Lemma names_cons : forall i d, names (i :: d) = names [i] ++ names d.
Proof. intros. unfold names. cbn [flat_map]. now rewrite app_nil_r. Qed.
(** the section that is open at the end *)
Fixpoint final (cur : option (section * Z)) (d : list item) : option (section * Z) :=
  match d with
  | [] => cur
  | Block h _ _ _ _ :: d => final (Some (h_section h, blen (h_indent h))) d
  | Inline _ _ _ _ :: d => final None d
  | Prose l :: d => final (match strip l with [] => cur | _ => None end) d
  end.
Lemma final_snd : forall d cur, option_map snd (final cur d) = open_at_end space (option_map snd cur) d.
Proof.
  induction d as [|i d IH]; intros cur; [reflexivity|].
  destruct i as [l|h ? ? ?|h ? ? ? ?]; cbn [final open_at_end].
  - rewrite IH. now destruct (strip l).
  - now rewrite IH.
  - now rewrite IH.
Qed.
Lemma parse_ok : forall w d cur n ls p,
  Forall (good_item space word w) d -> outdented space (option_map snd cur) d ->
  (length (names d) + (match mutable_expr p with Some _ => 1 | None => 0 end) <= 1)%nat ->
  plines w cur (render n d ++ ls) p =
  plines w (final cur d) ls (mkParse (messages p) (sections p ++ entries n d) (or_else (mutable_expr p) (names d))).
Proof.
  intros w. induction d as [|i d IH]; intros cur n ls p F O L.
  - cbn. rewrite app_nil_r. destruct p as [ms ss [m|]]; reflexivity.
  - inversion F as [|? ? G F']; subst. unfold render in *. cbn [flat_map]. rewrite number_app.
    rewrite names_cons, app_length in L. cbn [entries]. rewrite <- (app_assoc _ _ ls).
    destruct O as [[B O]|(NB & S0 & O)].
    + destruct i as [l|?|?]; try contradiction. cbn [item_lines number app].
      rewrite skip_blank by exact B. cbn in L. rewrite IH; [|exact F'|exact O|exact L].
      cbn [final]. rewrite strip_blank by exact B. reflexivity.
    + rewrite item_ok; auto.
      * rewrite IH; [|exact F'|destruct i; exact O|].
        -- cbn [messages sections mutable_expr]. rewrite <- app_assoc, (names_cons i d).
           replace (final cur (i :: d)) with (final (match i with Block h _ _ _ _ => Some (h_section h, blen (h_indent h)) | _ => None end) d).
           2: { destruct i as [l|h ? ? ?|h ? ? ? ?]; cbn [final]; try reflexivity.
                destruct (strip l) eqn:E; [|reflexivity]. exfalso. apply NB. cbn. now apply strip_nil. }
           f_equal. f_equal.
           destruct p as [ms ss [m|]]; cbn [mutable_expr or_else]; [reflexivity|].
           destruct (names [i]); reflexivity.
        -- cbn [mutable_expr]. destruct p as [ms ss [m|]]; cbn [mutable_expr or_else] in *; [lia|].
           destruct (names [i]) as [|x [|y q]]; cbn in *; lia.
      * destruct cur as [[k ind]|]; [exact S0|exact I].
      * destruct (mutable_expr p); [|exact I]. destruct (names [i]); [reflexivity|cbn in L; lia].
Qed.
Theorem reads_back : forall w n d, good space word w d ->
  parse_sections space word w (render n d) = mkParse [] (entries n d) (hd_error (names d)).
Proof.
  intros w n d (F & O & L). unfold parse_sections.
  replace (render n d) with (render n d ++ []) by apply app_nil_r.
  rewrite parse_ok; [reflexivity|exact F|exact O|]. cbn [mutable_expr]. lia.
Qed.

(** messages are only ever added *)
Lemma messages_grow : forall w ls cur p, exists m, messages (plines w cur ls p) = messages p ++ m.
Proof.
  intros w. induction ls as [|[n l] ls IH]; intros cur p; [exists []; cbn; now rewrite app_nil_r|].
  cbn [parse_lines]. destruct (strip l); [apply IH|].
  match goal with |- exists m, messages (match _ with None => ?f | _ => _ end) = _ => assert (K : exists m, messages f = messages p ++ m) end.
  { destruct (header l) as [[[[ind k] br] inl]|]; [|apply IH].
    destruct (negb (existsb (section_eqb k) w)); [apply IH|].
    destruct br as [b|].
    - destruct (negb (section_eqb k Post)).
      + destruct (IH None (mkParse (messages p ++ [(n, Some k)]) (sections p) (mutable_expr p))) as [m E].
        rewrite E. cbn. eexists. rewrite <- app_assoc. reflexivity.
      + destruct (mutable_expr p) as [me|] eqn:Em.
        * destruct (IH None (mkParse (messages p ++ [(n, None)]) (sections p) (Some me))) as [m E].
          rewrite E. cbn. eexists. rewrite <- app_assoc. reflexivity.
        * destruct (has_expr space inl).
          -- destruct (IH None (mkParse (messages p) (sections p ++ [(k, n, inl)]) (Some b))) as [m E]. exists m. exact E.
          -- destruct (IH (Some (k, ind)) (mkParse (messages p) (sections p) (Some b))) as [m E]. exists m. exact E.
    - destruct (has_expr space inl); [|apply IH].
      destruct (IH None (mkParse (messages p) (sections p ++ [(k, n, inl)]) (mutable_expr p))) as [m E]. exists m. exact E. }
  destruct cur as [[k ind]|]; [|exact K].
  destruct (section_line space l) as [this text]. destruct (this >? ind); [|exact K].
  destruct (has_expr space text); [|apply IH].
  destruct (IH (Some (k, ind)) (mkParse (messages p) (sections p ++ [(k, n, text)]) (mutable_expr p))) as [m E]. exists m. exact E.
Qed.

(** brackets where they are not allowed *)
Theorem misplaced_names : forall w n d m h b gap e trail ls,
  good space word w d ->
  blank (h_indent h) -> In (h_section h) w -> h_names h = Some b ->
  Forall (fun c => word c = true \/ space c = true \/ c = 44 \/ c = 46) b ->
  blank gap -> blank trail -> trimmed e -> match e with [] => True | c :: _ => c <> 58 end ->
  match open_at_end space None d with Some i => blen (h_indent h) <= i | None => True end ->
  h_section h <> Post \/ names d <> [] ->
  let p := parse_sections space word w (render n d ++ (m, head_text h ++ gap ++ e ++ trail) :: ls) in
  In (m, match h_section h with Post => None | k => Some k end) (messages p).
Proof.
  intros w n d m h b gap e trail ls (F & O & L) Bi Hw Hb Fb Bg Bt T N Out Bad p. subst p.
  unfold parse_sections. rewrite parse_ok; [|exact F|exact O|cbn [mutable_expr]; lia].
  cbn [messages sections mutable_expr or_else].
  destruct (head_line h (gap ++ e ++ trail)) as [I1 I2]; [right; exact Bi|].
  rewrite closes; [| |exact I2].
  2: { pose proof (final_snd d None) as E. cbn [option_map] in E. rewrite <- E in Out.
       destruct (final None d) as [[k i]|]; [|exact I]. cbn in Out. now rewrite I1. }
  cbn [parse_lines]. destruct (strip (head_text h ++ gap ++ e ++ trail)) as [|c r]; [contradiction|]. clear I1 I2.
  assert (H : header (head_text h ++ gap ++ e ++ trail) = Some (blen (h_indent h), h_section h, h_names h, e)).
  { apply header_any; auto. rewrite Hb. exact Fb. }
  rewrite H, Hb, wanted_eqb by exact Hw. cbn [negb].
  destruct (section_eqb (h_section h) Post) eqn:EP; cbn [negb].
  - assert (EP' : h_section h = Post) by (destruct (h_section h); [reflexivity|discriminate..]).
    rewrite EP' in *. destruct Bad as [Bad|Bad]; [contradiction|].
    destruct (names d) as [|x q]; [contradiction|]. cbn [hd_error mutable_expr].
    match goal with |- In _ (messages (plines ?w ?c ?l ?p)) => destruct (messages_grow w l c p) as [ms E]; rewrite E end.
    apply in_or_app. left. cbn. left. reflexivity.
  - match goal with |- In _ (messages (plines ?w ?c ?l ?p)) => destruct (messages_grow w l c p) as [ms E]; rewrite E end.
    apply in_or_app. left. cbn. left. now destruct (h_section h).
Qed.

(** names in brackets *)
Lemma split_none : forall c a, (forall x, In x a -> x <> c) -> split_on c a = [a].
Proof.
  intros c. induction a as [|x a IH]; intros H; [reflexivity|]. cbn.
  destruct (Z.eqb_spec x c); [exfalso; apply (H x); [now left|assumption]|].
  rewrite IH; [reflexivity|]. intros y I0. apply H. now right.
Qed.
Lemma split_some : forall c a r, (forall x, In x a -> x <> c) -> split_on c (a ++ c :: r) = a :: split_on c r.
Proof.
  intros c. induction a as [|x a IH]; intros r H; cbn.
  - now rewrite Z.eqb_refl.
  - destruct (Z.eqb_spec x c); [exfalso; apply (H x); [now left|assumption]|].
    rewrite IH; [reflexivity|]. intros y I0. apply H. now right.
Qed.
Lemma name_no_comma : forall x, good_name space x -> forall c, In c (name_text x) -> c <> 44.
Proof.
  intros [bf nm path af] (B & A & _ & Nm & Pt) c I0. cbn in *. pose proof U as (_ & _ & S44 & _).
  unfold name_text in I0; cbn in I0. repeat rewrite in_app_iff in I0.
  destruct I0 as [I0|[I0|[I0|I0]]].
  - unfold Docstring_Spec.blank in B. rewrite Forall_forall in B. intros ->. specialize (B _ I0). cbn in B. congruence.
  - now apply Nm.
  - destruct path as [q|]; [|contradiction]. destruct I0 as [<-|I0]; [discriminate|now apply Pt].
  - unfold Docstring_Spec.blank in A. rewrite Forall_forall in A. intros ->. specialize (A _ I0). cbn in A. congruence.
Qed.
Lemma ends_solid : forall s, s <> [] -> (forall c, In c s -> space c = false) -> trimmed s.
Proof.
  intros s N H. split.
  - destruct s; [exact I|]. apply H. now left.
  - destruct (rev s) eqn:E; [exact I|]. apply H. apply in_rev. rewrite E. now left.
Qed.
Lemma name_strip : forall x, good_name space x ->
  strip (name_text x) = n_name x ++ (match n_path x with Some q => [46] ++ q | None => [] end).
Proof.
  intros [bf nm path af] (B & A & N & Nm & Pt). cbn [n_before n_name n_path n_after] in *. unfold name_text. cbn [n_before n_name n_path n_after].
  rewrite (app_assoc nm). apply strip_text; [exact B| |exact A].
  pose proof U as (_ & _ & _ & S46 & _).
  apply ends_solid; [destruct nm; [contradiction|discriminate]|].
  intros c I0. apply in_app_iff in I0. destruct I0 as [I0|I0]; [now apply Nm|].
  destruct path as [q|]; [|contradiction]. destruct I0 as [<-|I0]; [exact S46|now apply Pt].
Qed.
Lemma name_nonempty : forall x, good_name space x -> name_text x <> [].
Proof.
  intros [bf nm path af] (_ & _ & N & _) E. unfold name_text in E; cbn in *.
  apply app_eq_nil in E. destruct E as [_ E]. apply app_eq_nil in E. now destruct E.
Qed.
Lemma name_value : forall x, good_name space x -> hd [] (split_on 46 (strip (name_text x))) = n_name x.
Proof.
  intros x G. rewrite name_strip by exact G. destruct G as (_ & _ & _ & Nm & _).
  destruct (n_path x) as [q|].
  - cbn [app]. rewrite split_some; [reflexivity|]. intros c I0. now apply Nm.
  - rewrite app_nil_r, split_none; [reflexivity|]. intros c I0. now apply Nm.
Qed.
Theorem names_read : forall l, Forall (good_name space) l -> mutable_args space (names_text l) = map n_name l.
Proof.
  intros l F. unfold mutable_args. induction l as [|x l IH]; [reflexivity|].
  inversion F as [|? ? G F']; subst.
  assert (V : forall r, map (fun e => hd [] (split_on 46 (strip e))) (filter (fun e => match e with [] => false | _ => true end) (name_text x :: r))
     = n_name x :: map (fun e => hd [] (split_on 46 (strip e))) (filter (fun e => match e with [] => false | _ => true end) r)).
  { intros r. cbn [filter]. pose proof (name_nonempty x G). destruct (name_text x) eqn:E; [contradiction|].
    rewrite <- E. cbn [map]. now rewrite name_value. }
  destruct l as [|y l].
  - cbn [names_text]. rewrite split_none; [|now apply name_no_comma]. rewrite V. reflexivity.
  - change (names_text (x :: y :: l)) with (name_text x ++ 44 :: names_text (y :: l)).
    rewrite split_some; [|now apply name_no_comma]. rewrite V, IH by exact F'. reflexivity.
Qed.

(** whatever the text, nothing is made up *)
Lemma has_expr_blank : forall e, has_expr space e = true -> ~ blank e.
Proof. intros e H B. unfold has_expr in H. now rewrite strip_blank in H. Qed.
Notation from_line := (from_line space).
Lemma strip_part : forall s, exists a b, s = a ++ strip s ++ b.
Proof.
  intros s. unfold Docstring_Model.strip, lstrip.
  destruct (span_any space s) as (A & _). set (q := snd (span space s)) in *.
  destruct (span_any space (rev q)) as (B & _).
  exists (fst (span space s)), (rev (fst (span space (rev q)))).
  rewrite <- rev_app_distr, <- B, rev_involutive. exact A.
Qed.
Lemma span_part : forall f s a b, span f s = (a, b) -> s = a ++ b.
Proof. intros f s a b E. destruct (span_any f s) as (A & _). now rewrite E in A. Qed.
Lemma header_part : forall l i k b e, header l = Some (i, k, b, e) -> exists x y, l = x ++ e ++ y.
Proof.
  intros l i k b e H. unfold Docstring_Model.header in H.
  destruct (span space l) as [ind r] eqn:S0. apply span_part in S0.
  remember (match r with c :: r' => if c =? 58 then r' else r | [] => r end) as r1 eqn:Er1.
  assert (R1 : exists x, r = x ++ r1).
  { rewrite Er1. destruct r as [|c r]; [now exists []|]. destruct (c =? 58); [now exists [c]|now exists []]. }
  clear Er1. destruct R1 as [x1 R1].
  destruct (take_keyword r1) as [[k0 r2]|] eqn:T; [|discriminate]. apply take_keyword_some in T.
  assert (C : forall (bb : option str) (r : str), match r with
        | c :: r' => if c =? 58 then
                       let r' := match r' with d :: r'' => if d =? 58 then r'' else r' | [] => r' end in
                       Some (Z.of_nat (length ind), k0, bb, strip r')
                     else None
        | [] => None
        end = Some (i, k, b, e) -> exists x y, r = x ++ e ++ y).
  { intros bb [|c q] E; [discriminate|]. destruct (c =? 58); [|discriminate]. cbn zeta in E.
    destruct q as [|d q].
    - inversion E; subst. now exists [c], [].
    - destruct (d =? 58).
      + inversion E; subst. destruct (strip_part q) as (u & v & Q). exists (c :: d :: u), v.
        cbn. now rewrite <- Q.
      + inversion E; subst. destruct (strip_part (d :: q)) as (u & v & Q). exists (c :: u), v.
        cbn [app]. now rewrite <- Q. }
  assert (G : exists x y, r2 = x ++ e ++ y).
  { destruct r2 as [|c q]; [discriminate|]. destruct (c =? 91).
    - destruct (span _ q) as [b0 q'] eqn:S1. apply span_part in S1. destruct q' as [|d q3]; [discriminate|].
      destruct (d =? 93); [|discriminate]. destruct (C (Some b0) q3 H) as (x & y & E).
      exists (c :: b0 ++ d :: x), y. rewrite S1, E. cbn [app]. now rewrite <- !app_assoc.
    - exact (C None (c :: q) H). }
  destruct G as (x & y & G). exists (ind ++ x1 ++ title k0 ++ x), y.
  rewrite S0, R1, T, G. now rewrite !app_assoc.
Qed.
Lemma section_eqb_eq : forall a b, section_eqb a b = true -> a = b.
Proof. intros [] []; cbn; congruence. Qed.
Lemma plines_from : forall w all ls cur p,
  incl ls all -> match cur with Some (k, _) => In k w | None => True end ->
  Forall (from_line w all) (sections p) -> Forall (from_line w all) (sections (plines w cur ls p)).
Proof.
  intros w all. induction ls as [|[n l] ls IH]; intros cur p I0 C F; [exact F|].
  assert (I1 : incl ls all) by (intros z Z0; apply I0; now right).
  assert (In0 : In (n, l) all) by (apply I0; now left).
  cbn [parse_lines]. destruct (strip l); [now apply IH|].
  match goal with |- Forall _ (sections (match _ with None => ?f | _ => _ end)) => assert (K : Forall (from_line w all) (sections f)) end.
  { destruct (header l) as [[[[ind k] br] inl]|] eqn:H; [|now apply IH].
    destruct (existsb (section_eqb k) w) eqn:W; cbn [negb]; [|now apply IH].
    apply existsb_exists in W. destruct W as (k' & W & E). apply section_eqb_eq in E. subst k'.
    assert (N : has_expr space inl = true -> Forall (from_line w all) (sections p ++ [(k, n, inl)])).
    { intros E. apply Forall_app. split; [exact F|]. constructor; [|constructor].
      destruct (header_part _ _ _ _ _ H) as (x & y & Q). split; [assumption|]. split; [now apply has_expr_blank|]. eauto. }
    destruct br as [b|].
    - destruct (negb (section_eqb k Post)); [now apply IH|].
      destruct (mutable_expr p) as [me|]; [now apply IH|].
      destruct (has_expr space inl); apply IH; auto; apply N; reflexivity.
    - destruct (has_expr space inl); apply IH; auto; apply N; reflexivity. }
  destruct cur as [[k ind]|]; [|exact K].
  unfold section_line. destruct (_ >? ind); [|exact K].
  destruct (has_expr space (strip l)) eqn:E; apply IH; auto. cbn [sections].
  apply Forall_app. split; [exact F|]. constructor; [|constructor].
  destruct (strip_part l) as (x & y & Q). split; [assumption|]. split; [now apply has_expr_blank|]. eauto.
Qed.
(** the first line *)
Definition outer (h : head) : head := mkHead [] (h_colon h) (h_section h) (h_names h) (h_double h).
Definition dedent (i : item) : item :=
  match i with
  | Prose l => Prose (lstrip space l)
  | Inline h gap e trail => Inline (outer h) gap e trail
  | Block h gap c trail b => Block (outer h) gap c trail b
  end.
Lemma lstrip_blank : forall l, blank (lstrip space l) -> blank l.
Proof.
  intros l B. unfold lstrip in B. destruct (span_any space l) as (A & C & _). rewrite A. apply Forall_app. now split.
Qed.
Lemma blank_lstrip : forall l, blank l -> blank (lstrip space l).
Proof.
  intros l B. unfold lstrip. destruct (span_any space l) as (A & C & _). rewrite A in B. apply Forall_app in B. apply B.
Qed.
Lemma no_header_lstrip : forall l, no_header space l -> no_header space (lstrip space l).
Proof.
  intros l N i k c r B O. unfold lstrip. destruct (span_any space l) as (A & C & _).
  destruct (N (fst (span space l) ++ i) k c r) as [N1 N2]; [now apply Forall_app|exact O|].
  split; intros E.
  - apply N1. rewrite <- app_assoc, <- E. exact A.
  - apply N2. rewrite <- app_assoc, <- E. exact A.
Qed.
Lemma head_text_outer : forall h, head_text h = h_indent h ++ head_text (outer h).
Proof. intros h. reflexivity. Qed.
Lemma open_quoted : forall i r, blank i -> open_line space (i ++ 34 :: 34 :: 34 :: r) = Some r.
Proof.
  intros i r B. unfold open_line. rewrite lstrip_app; [reflexivity|exact B|].
  pose proof U as (S34 & _). exact S34.
Qed.
Lemma head_solid : forall h r, solid (head_text (outer h) ++ r).
Proof.
  intros [ind col k nm dbl] r. pose proof U as (_ & S58 & _ & _ & _ & _ & _ & SK).
  unfold head_text, outer. cbn [h_indent h_colon h_section h_names h_double app].
  destruct col; [exact S58|]. destruct k; cbn; [apply (SK Post)|apply (SK Pre)|apply (SK Raises)|apply (SK Inv)]; left; reflexivity.
Qed.
Lemma doc_lines_quoted : forall w n i d, good_item space word w i ->
  doc_lines space (quoted space (render n (i :: d))) = render n (dedent i :: d).
Proof.
  intros w n i d G. unfold render. cbn [flat_map].
  destruct i as [l|h gap e trail|h gap c trail b]; cbn [item_lines app number quoted dedent].
  - cbn [doc_lines]. rewrite open_quoted; [reflexivity|]. apply (span_any space l).
  - destruct G as ((B & _) & _). cbn [doc_lines]. rewrite (head_text_outer h), <- app_assoc.
    rewrite span_app; [|exact B|apply head_solid]. cbn [fst snd]. rewrite open_quoted by exact B. reflexivity.
  - destruct G as ((B & _) & _). cbn [doc_lines]. rewrite (head_text_outer h), <- app_assoc.
    rewrite span_app; [|exact B|apply head_solid]. cbn [fst snd]. rewrite open_quoted by exact B. reflexivity.
Qed.
Theorem reads_back_quoted : forall w n i d, good space word w (i :: d) ->
  match i with Block _ _ _ _ _ => False | _ => True end ->
  parse_sections space word w (doc_lines space (quoted space (render n (i :: d)))) =
  mkParse [] (entries n (i :: d)) (hd_error (names (i :: d))).
Proof.
  intros w n i d G NB.
  assert (G' : good space word w (dedent i :: d)).
  { destruct G as (F & O & L). inversion F as [|? ? Gi F']; subst. split; [|split].
    - constructor; [|exact F']. destruct i as [l|h gap e trail|]; [now apply no_header_lstrip| |contradiction].
      destruct Gi as ((B & Gh) & Gi). split; [|exact Gi]. split; [constructor|exact Gh].
    - destruct i as [l|h gap e trail|]; [| |contradiction]; cbn [outdented dedent] in *.
      + destruct O as [[B O]|(B & _ & O)].
        * left. split; [now apply blank_lstrip|exact O].
        * right. split; [|split; [exact I|exact O]]. intros B'. apply B. now apply lstrip_blank.
      + exact O.
    - destruct i as [l|h gap e trail|]; [exact L|exact L|contradiction]. }
  rewrite (doc_lines_quoted w); [|destruct G as (F & _); now inversion F].
  rewrite reads_back by exact G'. destruct i as [l|h gap e trail|]; [reflexivity|reflexivity|contradiction].
Qed.
Lemma no_header_check : forall l,
  take_keyword (match lstrip space l with c :: r => if c =? 58 then r else c :: r | [] => [] end) = None -> no_header space l.
Proof.
  intros l H i k c r B O. pose proof U as (_ & S58 & _ & _ & _ & _ & _ & SK). split; intros ->.
  - rewrite lstrip_app in H; [|exact B|destruct k; cbn; [apply (SK Post)|apply (SK Pre)|apply (SK Raises)|apply (SK Inv)]; left; reflexivity].
    destruct k; discriminate H.
  - rewrite lstrip_app in H; [|exact B|exact S58]. cbn [app] in H. change (58 =? 58) with true in H. cbv iota in H.
    rewrite take_keyword_app in H. discriminate H.
Qed.
Theorem nothing_made_up : forall w lines, Forall (from_line w lines) (sections (parse_sections space word w lines)).
Proof. intros. apply plines_from; [apply incl_refl|exact I|constructor]. Qed.
End P.
