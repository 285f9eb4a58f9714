From Coq Require Import ZArith List Bool Lia.
Import ListNotations.
From Verif Require Import Py Registry_Model Registry_Spec.

Lemma subset_spec a b : subset a b = true <-> forall x, In x a -> In x b.
Proof.
  unfold subset. rewrite forallb_forall. split; intros H x I; specialize (H x I).
  - apply existsb_exists in H as (y & Y & E). apply Z.eqb_eq in E. now subst.
  - apply existsb_exists. exists x. split; [exact H|apply Z.eqb_refl].
Qed.
Lemma in_required ps x : In x (required ps) <-> must_give ps x.
Proof.
  unfold required, must_give. rewrite in_map_iff. split.
  - intros ([y d] & E & I). cbn in E. subst. apply filter_In in I as [I D]. destruct d; [discriminate|exact I].
  - intros I. exists (x, false). split; [reflexivity|]. apply filter_In. now split.
Qed.
Lemma in_names s x : In x (names (params s)) <-> takes s x.
Proof.
  unfold names, takes. rewrite in_map_iff. split.
  - intros ([y d] & E & I). cbn in E. subst. now exists d.
  - intros [d I]. now exists (x, d).
Qed.

Section Functions.
Variable module_of : nat -> nat.
Variable no_auto : nat -> bool.
Variable python_sig : nat -> option sg.
Variable stub_sigs : nat -> list sg.
Variable bound_method : nat -> bool.
Variable cond_params : nat -> list (Z * bool).
Local Notation verify := (verify cond_params).
Local Notation add := (add cond_params).
Local Notation internal := (internal_register python_sig stub_sigs cond_params).

Lemma verify_well_formed f pre post sigs :
  verify pre post sigs (python_sig f) = true <-> well_formed python_sig cond_params f pre post sigs.
Proof.
  unfold verify, Registry_Model.verify, well_formed. rewrite forallb_forall.
  assert (A : forall s, In s (match python_sig f with Some r => sigs ++ [r] | None => sigs end) <-> In s sigs \/ python_sig f = Some s).
  { intros s. destruct (python_sig f) as [r|].
    - rewrite in_app_iff. cbn. split; [intros [H|[->|[]]]; auto|intros [H|H]; [auto|injection H as ->; auto]].
    - split; [auto|intros [H|H]; [auto|discriminate]]. }
  assert (B : forall s, (match python_sig f with Some r => subset (required (params s)) (names (params r)) | None => true end &&
     match pre with Some p => subset (required (cond_params p)) (names (params s)) | None => true end &&
     match post with Some p => subset (required (cond_params p)) (old_name :: return_name :: names (params s)) | None => true end = true) <->
     (forall r, python_sig f = Some r -> forall x, must_give (params s) x -> takes r x) /\ pre_fits cond_params pre s /\ post_fits cond_params post s).
  { intros s. rewrite !andb_true_iff, and_assoc. unfold pre_fits, post_fits.
    split; intros (H1 & H2 & H3); (split; [|split]).
    - intros r E x M. rewrite E in H1. apply in_names. rewrite subset_spec in H1. apply H1. now apply in_required.
    - intros p -> x M. apply in_names. rewrite subset_spec in H2. apply H2. now apply in_required.
    - intros p -> x M. rewrite subset_spec in H3. specialize (H3 x). cbn in H3.
      destruct H3 as [H3|[H3|H3]]; [now apply in_required|auto|auto|left; now apply in_names].
    - destruct (python_sig f) as [r|]; [|reflexivity]. apply subset_spec. intros x I. apply in_names. apply (H1 r eq_refl). now apply in_required.
    - destruct pre as [p|]; [|reflexivity]. apply subset_spec. intros x I. apply in_names. apply (H2 p eq_refl). now apply in_required.
    - destruct post as [p|]; [|reflexivity]. apply subset_spec. intros x I. cbn.
      destruct (H3 p eq_refl x) as [H|[H|H]]; [now apply in_required|right; right; now apply in_names|auto|auto]. }
  split.
  - intros H s I. apply B. apply H. now apply A.
  - intros H s I. apply B. apply H. now apply A.
Qed.

(** No two functions share a list *)
Definition separate (st : registry) : Prop :=
  (forall f c, find (contracts st) f = Some c -> k_sigs c < length (lists st)) /\
  (forall f g c d, f <> g -> find (contracts st) f = Some c -> find (contracts st) g = Some d -> k_sigs c <> k_sigs d).
Definition unused (st : registry) (l : nat) : Prop :=
  l < length (lists st) /\ forall f c, find (contracts st) f = Some c -> k_sigs c <> l.
Definition unused_arg (st : registry) (a : sigarg) : Prop := match a with SigList l => unused st l | _ => True end.
Definition given (st : registry) (a : sigarg) : list sg :=
  match a with NoSig => [] | OneSig s => [s] | SigList l => the_list st l end.

Lemma extend_same ls n more : n < length ls -> nth n (extend_list ls n more) [] = nth n ls [] ++ more.
Proof. revert n. induction ls as [|x ls IH]; intros [|n] H; cbn in *; try lia; [reflexivity|]. apply IH. lia. Qed.
Lemma extend_other ls n m more : m <> n -> nth m (extend_list ls n more) [] = nth m ls [].
Proof. revert n m. induction ls as [|x ls IH]; intros [|n] [|m] H; cbn; try reflexivity; try congruence. apply IH. lia. Qed.
Lemma extend_length ls n more : length (extend_list ls n more) = length ls.
Proof. revert n. induction ls as [|x ls IH]; intros [|n]; cbn; try reflexivity. now rewrite IH. Qed.

Lemma same_opt_spec a b : same_opt a b = true <-> a = b.
Proof.
  destruct a, b; cbn; try (split; congruence). rewrite Nat.eqb_eq. split; congruence.
Qed.

Lemma add_spec st f pre post l skip ok st' : separate st -> unused st l ->
  add st f (Contract pre post l skip) (python_sig f) = (ok, st') ->
  (ok = true <-> well_formed python_sig cond_params f pre post (the_list st l) /\
     forall e, entries (book_of st) f = Some e -> e_pre e = pre /\ e_post e = post /\ e_skip e = skip) /\
  (ok = true -> entered (book_of st) f pre post (the_list st l) skip (book_of st')) /\
  (ok = false -> st' = st) /\ separate st'.
Proof.
  intros [S1 S2] [U1 U2]. unfold add, Registry_Model.add. cbn [k_pre k_post k_sigs k_skip].
  destruct (Registry_Model.verify cond_params pre post (the_list st l) (python_sig f)) eqn:V.
  - apply verify_well_formed in V. cbn [book_of entries]. destruct (find (contracts st) f) as [old|] eqn:F.
    + destruct (same_opt (k_pre old) pre && same_opt (k_post old) post && Bool.eqb (k_skip old) skip) eqn:E.
      * rewrite !andb_true_iff in E. destruct E as ((E1 & E2) & E3). apply same_opt_spec in E1, E2. apply eqb_prop in E3.
        intros H. injection H as <- <-. split; [|split; [|split]].
        -- split; [|reflexivity]. intros _. split; [exact V|]. cbn. intros e H. injection H as <-. cbn. now split.
        -- intros _. unfold entered. cbn [book_of entries contracts option_map]. rewrite F. cbn [option_map entry_of e_sigs]. split; [|split].
           ++ unfold entry_of. cbn. unfold the_list. cbn. rewrite extend_same by exact (S1 f old F). now rewrite E1, E2, E3.
           ++ intros g N. destruct (find (contracts st) g) as [d|] eqn:G; [|reflexivity]. cbn. unfold entry_of, the_list. cbn.
              rewrite extend_other; [reflexivity|]. exact (S2 g f d old N G F).
           ++ reflexivity.
        -- discriminate.
        -- split; cbn [contracts lists].
           ++ intros g c H. rewrite extend_length. exact (S1 g c H).
           ++ exact S2.
      * intros H. injection H as <- <-. split; [|split; [|split]]; [|discriminate|reflexivity|now split].
        split; [discriminate|]. intros [_ H]. cbn in H. destruct (H _ eq_refl) as (H1 & H2 & H3). cbn in *. subst.
        rewrite !andb_false_iff in E. destruct E as [[E|E]|E].
        -- assert (same_opt (k_pre old) (k_pre old) = true) by now apply same_opt_spec. congruence.
        -- assert (same_opt (k_post old) (k_post old) = true) by now apply same_opt_spec. congruence.
        -- rewrite eqb_reflx in E. discriminate.
    + intros H. injection H as <- <-. split; [|split; [|split]].
      * split; [|reflexivity]. intros _. split; [exact V|]. cbn. discriminate.
      * intros _. unfold entered. cbn [book_of entries contracts find]. rewrite Nat.eqb_refl, F. cbn [option_map]. split; [|split].
        -- reflexivity.
        -- intros g N. destruct (Nat.eqb_spec f g); [congruence|]. reflexivity.
        -- reflexivity.
      * discriminate.
      * split; cbn [contracts lists find].
        -- intros g c. destruct (Nat.eqb_spec f g); [|exact (S1 g c)]. intros H. injection H as <-. exact U1.
        -- intros g h c d N. destruct (Nat.eqb_spec f g), (Nat.eqb_spec f h); subst; intros G H; try congruence.
           ++ injection G as <-. cbn. intros E. exact (U2 h d H (eq_sym E)).
           ++ injection H as <-. cbn. exact (U2 g c G).
           ++ exact (S2 g h c d N G H).
  - intros H. injection H as <- <-. split; [|split; [|split]]; [|discriminate|reflexivity|now split].
    split; [discriminate|]. intros [W _]. exfalso. pose proof (proj2 (verify_well_formed f pre post (the_list st l)) W). congruence.
Qed.

Lemma fresh_ok st l : separate st ->
  separate (snd (fresh st l)) /\ unused (snd (fresh st l)) (fst (fresh st l)) /\
  the_list (snd (fresh st l)) (fst (fresh st l)) = l /\ unchanged (book_of st) (book_of (snd (fresh st l))).
Proof.
  intros [S1 S2]. unfold fresh, unused, separate. cbn [fst snd contracts lists]. rewrite app_length. cbn. split; [|split; [|split]].
  - split; [|exact S2]. intros f c H. specialize (S1 f c H). lia.
  - split; [lia|]. intros f c H. specialize (S1 f c H). lia.
  - unfold the_list. cbn. rewrite app_nth2 by lia. now rewrite Nat.sub_diag.
  - split; [|reflexivity]. intros g. cbn. destruct (find (contracts st) g) as [c|] eqn:F; [|reflexivity]. cbn. f_equal.
    unfold entry_of, the_list. cbn. rewrite app_nth1; [reflexivity|]. exact (S1 g c F).
Qed.

Lemma unchanged_trans a b c : unchanged a b -> unchanged b c -> unchanged a c.
Proof.
  intros [H1 H2] [H3 H4]. split; [intros g; now rewrite H3|]. intros m. now rewrite H4.
Qed.
Lemma unchanged_entered a b c f pre post sigs skip : unchanged a b -> entered b f pre post sigs skip c -> entered a f pre post sigs skip c.
Proof.
  intros [H1 H2] (E1 & E2 & E3). split; [|split].
  - now rewrite <- H1.
  - intros g N. now rewrite E2, H1.
  - intros m. now rewrite E3.
Qed.

Lemma internal_spec st f pre post a skip ok st' : separate st -> unused_arg st a ->
  internal st f pre post a skip = (ok, st') ->
  (ok = true <-> acceptable python_sig cond_params (book_of st) f pre post (effective python_sig stub_sigs f (given st a)) skip) /\
  (ok = true -> entered (book_of st) f pre post (effective python_sig stub_sigs f (given st a)) skip (book_of st')) /\
  (ok = false -> unchanged (book_of st) (book_of st')) /\ separate st'.
Proof using cond_params python_sig stub_sigs.
  clear module_of no_auto bound_method.
  intros S U.
  assert (Fresh : forall sigs, effective python_sig stub_sigs f (given st a) = sigs -> sigs <> [] \/ python_sig f <> None ->
     (let (l, s) := fresh st sigs in add s f (Contract pre post l skip) (python_sig f)) = (ok, st') ->
     (ok = true <-> acceptable python_sig cond_params (book_of st) f pre post sigs skip) /\
     (ok = true -> entered (book_of st) f pre post sigs skip (book_of st')) /\
     (ok = false -> unchanged (book_of st) (book_of st')) /\ separate st').
  { intros sigs _ N H. destruct (fresh_ok st sigs S) as (F1 & F2 & F3 & F4). destruct (fresh st sigs) as [l s]. cbn [fst snd] in *.
    destruct (add_spec s f pre post l skip ok st' F1 F2 H) as (A1 & A2 & A3 & A4). rewrite F3 in *. split; [|split; [|split]].
    - rewrite A1. unfold acceptable. destruct F4 as [F4 _]. rewrite F4. tauto.
    - intros E. exact (unchanged_entered _ _ _ _ _ _ _ _ F4 (A2 E)).
    - intros E. rewrite (A3 E). exact F4.
    - exact A4. }
  assert (Same : forall l, a = SigList l -> effective python_sig stub_sigs f (given st a) = the_list st l ->
     the_list st l <> [] \/ python_sig f <> None ->
     add st f (Contract pre post l skip) (python_sig f) = (ok, st') ->
     (ok = true <-> acceptable python_sig cond_params (book_of st) f pre post (the_list st l) skip) /\
     (ok = true -> entered (book_of st) f pre post (the_list st l) skip (book_of st')) /\
     (ok = false -> unchanged (book_of st) (book_of st')) /\ separate st').
  { intros l -> _ N H. destruct (add_spec st f pre post l skip ok st' S U H) as (A1 & A2 & A3 & A4). split; [|split; [|split]].
    - rewrite A1. unfold acceptable. tauto.
    - exact A2.
    - intros E. rewrite (A3 E). split; reflexivity.
    - exact A4. }
  unfold internal, internal_register.
  destruct a as [|s|l]; cbn [given] in *.
  - destruct (python_sig f) as [r|] eqn:R; cbn [effective andb] in *.
    + unfold effective in *. rewrite R in *. destruct (annotated r) eqn:An; cbn [negb] in *.
      * intros H. apply Fresh; auto. right. discriminate.
      * destruct (stub_sigs f) as [|s0 ss] eqn:ST; intros H; (apply Fresh; [reflexivity|right; discriminate|exact H]).
    + unfold effective in *. rewrite R in *. destruct (stub_sigs f) as [|s0 ss] eqn:ST.
      * intros H. injection H as <- <-. split; [|split; [|split]]; [|discriminate|intros _; split; reflexivity|exact S].
        split; [discriminate|]. intros [[N|N] _]; congruence.
      * intros H. apply Fresh; [reflexivity|left; discriminate|exact H].
  - unfold effective in *. cbn [andb] in *. intros H. apply Fresh; [reflexivity|left; discriminate|exact H].
  - destruct (the_list st l) as [|s0 ss] eqn:L; cbn [andb] in *.
    + unfold effective in *. destruct (python_sig f) as [r|] eqn:R.
      * destruct (annotated r) eqn:An; cbn [negb] in *.
        -- intros H. specialize (Same l eq_refl). rewrite L in Same. apply Same; [reflexivity|right; discriminate|exact H].
        -- destruct (stub_sigs f) as [|s1 ss] eqn:ST; intros H; (apply Fresh; [reflexivity|right; discriminate|exact H]).
      * destruct (stub_sigs f) as [|s1 ss] eqn:ST.
        -- intros H. injection H as <- <-. split; [|split; [|split]]; [|discriminate|intros _; split; reflexivity|exact S].
           split; [discriminate|]. intros [[N|N] _]; congruence.
        -- intros H. apply Fresh; [reflexivity|left; discriminate|exact H].
    + unfold effective in *. intros H. specialize (Same l eq_refl). rewrite L in Same. apply Same; [reflexivity|left; discriminate|exact H].
Qed.

(** Contracts stay once entered, in every history *)
Lemma add_keeps st f c ref g d : find (contracts st) g = Some d -> find (contracts (snd (add st f c ref))) g = Some d.
Proof.
  intros H. unfold add, Registry_Model.add. destruct (Registry_Model.verify _ _ _ _ _); [|exact H].
  destruct (find (contracts st) f) as [old|] eqn:F.
  - destruct (_ && _ && _); exact H.
  - cbn. destruct (Nat.eqb_spec f g); [congruence|exact H].
Qed.
Lemma add_enters st f c ref : fst (add st f c ref) = true -> exists d, find (contracts (snd (add st f c ref))) f = Some d /\
  k_pre d = k_pre c /\ k_post d = k_post c /\ k_skip d = k_skip c.
Proof.
  unfold add, Registry_Model.add. destruct (Registry_Model.verify _ _ _ _ _); [|discriminate].
  destruct (find (contracts st) f) as [old|] eqn:F.
  - destruct (same_opt (k_pre old) (k_pre c) && same_opt (k_post old) (k_post c) && Bool.eqb (k_skip old) (k_skip c)) eqn:E; [|discriminate].
    intros _. exists old. cbn. rewrite !andb_true_iff in E. destruct E as ((E1 & E2) & E3). apply same_opt_spec in E1, E2. apply eqb_prop in E3. auto.
  - intros _. exists c. cbn. rewrite Nat.eqb_refl. auto.
Qed.
Lemma internal_shape st f pre post a skip :
  internal st f pre post a skip = (false, st) \/
  exists st1 l, contracts st1 = contracts st /\ internal st f pre post a skip = add st1 f (Contract pre post l skip) (python_sig f).
Proof.
  unfold internal, internal_register.
  destruct ((match a with NoSig => true | OneSig _ => false | SigList l => match the_list st l with [] => true | _ => false end end) &&
            (match python_sig f with None => true | Some r => negb (annotated r) end)).
  - destruct (stub_sigs f) as [|s ss]; destruct (python_sig f) as [r|]; [right|left; reflexivity|right|right];
      (eexists; eexists; split; [|reflexivity]; reflexivity).
  - right. destruct a; (eexists; eexists; split; [|reflexivity]; reflexivity).
Qed.
Lemma internal_keeps st f pre post a skip g d : find (contracts st) g = Some d ->
  find (contracts (snd (internal st f pre post a skip))) g = Some d.
Proof.
  intros H. destruct (internal_shape st f pre post a skip) as [->|(st1 & l & C & ->)]; [exact H|]. apply add_keeps. now rewrite C.
Qed.
Lemma internal_enters st f pre post a skip : fst (internal st f pre post a skip) = true ->
  exists d, find (contracts (snd (internal st f pre post a skip))) f = Some d /\ k_pre d = pre /\ k_post d = post /\ k_skip d = skip.
Proof.
  destruct (internal_shape st f pre post a skip) as [->|(st1 & l & C & ->)]; [discriminate|]. intros H.
  destruct (add_enters _ _ _ _ H) as (d & H1 & H2). exists d. split; [exact H1|exact H2].
Qed.
Local Notation do_call := (do_call module_of no_auto python_sig stub_sigs bound_method cond_params).
Local Notation run := (run module_of no_auto python_sig stub_sigs bound_method cond_params).
Lemma do_call_keeps st c g d : find (contracts st) g = Some d -> find (contracts (snd (do_call st c))) g = Some d.
Proof.
  intros H. destruct c as [l|f pre post a skip|m|f]; cbn [do_call Registry_Model.do_call].
  - exact H.
  - unfold register. destruct (bound_method f); [exact H|]. rewrite (surjective_pairing (internal_register _ _ _ _ _ _ _ _ _)). cbn [snd].
    now apply internal_keeps.
  - exact H.
  - unfold get_contract. destruct (find (contracts st) f) as [c|] eqn:F; [exact H|]. destruct (no_auto f); [exact H|].
    destruct (existsb _ _); [|exact H]. cbn [snd]. now apply internal_keeps.
Qed.
Lemma run_keeps h st g d : find (contracts st) g = Some d -> find (contracts (snd (run st h))) g = Some d.
Proof.
  revert st. induction h as [|c h IH]; intros st H; [exact H|]. cbn [run Registry_Model.run].
  pose proof (do_call_keeps st c g d H) as K. destruct (Registry_Model.do_call _ _ _ _ _ _ st c) as [a st1]. cbn [snd] in K.
  specialize (IH st1 K). destruct (Registry_Model.run _ _ _ _ _ _ st1 h) as [l st2]. exact IH.
Qed.

(** Histories that never hand out the same list twice *)
Fixpoint careful (st : registry) (h : list call) : Prop :=
  match h with
  | [] => True
  | c :: h => match c with Register _ _ _ a _ => unused_arg st a | _ => True end /\ careful (snd (do_call st c)) h
  end.
(** what is entered fits *)
Definition fits (st : registry) : Prop :=
  forall f c, find (contracts st) f = Some c ->
    well_formed python_sig cond_params f (k_pre c) (k_post c) (the_list st (k_sigs c)) /\ (the_list st (k_sigs c) <> [] \/ python_sig f <> None).
Lemma wf_app f pre post a b : well_formed python_sig cond_params f pre post a -> well_formed python_sig cond_params f pre post b ->
  well_formed python_sig cond_params f pre post (a ++ b).
Proof. intros A B s [I|I]; [apply in_app_iff in I as [I|I]; [apply A|apply B]; auto|apply A; auto]. Qed.
Definition book_fits (b : book) : Prop := forall f e, entries b f = Some e ->
  well_formed python_sig cond_params f (e_pre e) (e_post e) (e_sigs e) /\ (e_sigs e <> [] \/ python_sig f <> None).
Lemma fits_book st : fits st <-> book_fits (book_of st).
Proof.
  unfold fits, book_fits. cbn. split.
  - intros H f e E. destruct (find (contracts st) f) as [c|] eqn:F; [|discriminate]. injection E as <-. exact (H f c F).
  - intros H f c F. specialize (H f (entry_of st c)). rewrite F in H. exact (H eq_refl).
Qed.
Lemma unchanged_fits b b' : book_fits b -> unchanged b b' -> book_fits b'.
Proof. intros B [U _] f e E. rewrite U in E. exact (B f e E). Qed.
Lemma entered_fits b b' f pre post sigs skip : book_fits b -> acceptable python_sig cond_params b f pre post sigs skip ->
  entered b f pre post sigs skip b' -> book_fits b'.
Proof.
  intros B (N & W & S) (E1 & E2 & _) g e G. destruct (Nat.eq_dec g f) as [->|D]; [|rewrite E2 in G by exact D; exact (B g e G)].
  rewrite E1 in G. injection G as <-. cbn. destruct (entries b f) as [old|] eqn:O; [|split; assumption].
  destruct (S old eq_refl) as (S1 & S2 & S3). destruct (B f old O) as [B1 B2]. rewrite S1, S2 in B1. split; [now apply wf_app|].
  destruct B2 as [B2|B2]; [|now right]. left. destruct (e_sigs old); [congruence|discriminate].
Qed.
Lemma internal_good st f pre post a skip : separate st -> unused_arg st a -> fits st ->
  separate (snd (internal st f pre post a skip)) /\ fits (snd (internal st f pre post a skip)).
Proof.
  intros S U F. destruct (internal st f pre post a skip) as [ok st'] eqn:E. destruct (internal_spec st f pre post a skip ok st' S U E) as (A1 & A2 & A3 & A4).
  cbn [snd]. split; [exact A4|]. apply fits_book. apply fits_book in F. destruct ok.
  - exact (entered_fits _ _ _ _ _ _ _ F (proj1 A1 eq_refl) (A2 eq_refl)).
  - exact (unchanged_fits _ _ F (A3 eq_refl)).
Qed.
Lemma do_call_good st c : separate st -> fits st -> match c with Register _ _ _ a _ => unused_arg st a | _ => True end ->
  separate (snd (do_call st c)) /\ fits (snd (do_call st c)).
Proof.
  intros S F U. destruct c as [l|f pre post a skip|m|f]; cbn [do_call Registry_Model.do_call].
  - cbn [snd]. destruct (fresh_ok st l S) as (F1 & F2 & F3 & F4). split; [exact F1|]. apply fits_book. apply fits_book in F. exact (unchanged_fits _ _ F F4).
  - unfold register. destruct (bound_method f); [now split|]. rewrite (surjective_pairing (internal_register _ _ _ _ _ _ _ _ _)). cbn [snd].
    now apply internal_good.
  - now split.
  - unfold get_contract. destruct (find (contracts st) f); [now split|]. destruct (no_auto f); [now split|].
    destruct (existsb _ _); [|now split]. cbn [snd]. now apply internal_good.
Qed.
Lemma run_good h st : separate st -> fits st -> careful st h -> separate (snd (run st h)) /\ fits (snd (run st h)).
Proof.
  revert st. induction h as [|c h IH]; intros st S F C; [now split|]. destruct C as [C1 C2]. destruct (do_call_good st c S F C1) as [S1 F1].
  cbn [run Registry_Model.run]. destruct (Registry_Model.do_call _ _ _ _ _ _ st c) as [a st1]. cbn [snd] in *.
  specialize (IH st1 S1 F1 C2). destruct (Registry_Model.run _ _ _ _ _ _ st1 h) as [l st2]. exact IH.
Qed.
Lemma run_app h1 h2 st : run st (h1 ++ h2) = (fst (run st h1) ++ fst (run (snd (run st h1)) h2), snd (run (snd (run st h1)) h2)).
Proof.
  revert st. induction h1 as [|c h IH]; intros st; cbn [app run Registry_Model.run]; [apply surjective_pairing|].
  destruct (Registry_Model.do_call _ _ _ _ _ _ st c) as [a st1]. rewrite IH.
  destruct (Registry_Model.run _ _ _ _ _ _ st1 h) as [l st2]. reflexivity.
Qed.
Lemma empty_good : separate empty /\ fits empty.
Proof. split; [split|]; cbn; discriminate. Qed.
End Functions.
