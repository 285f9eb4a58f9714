From Coq Require Import ZArith List Bool Lia ZifyBool String Permutation.
Close Scope string_scope.
From Verif Require Import Py Str_Model Options_Model Options_Proofs Audit_Model Audit_Spec.
Import ListNotations.
Open Scope Z_scope.
Arguments of_string _%string.

Lemma str_eqb_refl a : str_eqb a a = true. Proof. now apply str_eqb_eq. Qed.
Lemma str_eqb_spec a b : reflect (a = b) (str_eqb a b).
Proof. apply iff_reflect. symmetry. apply str_eqb_eq. Qed.
Lemma mem_in s l : mem s l = true <-> In s l.
Proof.
  unfold mem. rewrite existsb_exists. split; [intros (x & I & E); apply str_eqb_eq in E; now subst|].
  intro I. exists s. split; [assumption|apply str_eqb_refl].
Qed.
Lemma lookup_store {A} k k' (v : A) d : lookup k (store k' v d) = if str_eqb k k' then Some v else lookup k d.
Proof.
  induction d as [|[k1 v1] d IH]; cbn; [reflexivity|].
  destruct (str_eqb_spec k' k1) as [->|N]; cbn.
  - destruct (str_eqb_spec k k1); reflexivity.
  - rewrite IH. destruct (str_eqb_spec k k1) as [E1|N1], (str_eqb_spec k k') as [E2|N2]; congruence.
Qed.

(** tries *)
Fixpoint prefixb (p tokens : list str) : bool :=
  match p, tokens with
  | [], _ => true
  | x :: p, y :: t => str_eqb x y && prefixb p t
  | _, [] => false
  end.
Lemma prefixb_ok p t : prefixb p t = true <-> exists r, t = p ++ r.
Proof.
  revert t. induction p as [|x p IH]; intro t; cbn; [split; eauto|]. destruct t as [|y t]; [split; [discriminate|intros (r & H); discriminate]|].
  rewrite andb_true_iff, IH, str_eqb_eq. split; [intros (-> & r & ->); eauto|]. intros (r & H). injection H as -> ->. eauto.
Qed.
(** the walk, counting an end at the root *)
Definition hits (t : trie) (tokens : list str) : bool := ends t || walk t tokens.
Lemma hits_cons t a r : hits t (a :: r) = ends t || match child t a with Some u => hits u r | None => false end.
Proof. unfold hits. cbn. destruct (child t a) as [u|]; [|reflexivity]. destruct (ends u); reflexivity. Qed.
Lemma hits_nil t : hits t [] = ends t. Proof. unfold hits. cbn. apply orb_false_r. Qed.
Lemma hits_empty tokens : hits empty_trie tokens = false. Proof. destruct tokens; reflexivity. Qed.
Lemma hits_insert p : forall t tokens, hits (insert p t) tokens = prefixb p tokens || hits t tokens.
Proof.
  induction p as [|k p IH]; intros [e c] tokens; cbn [insert].
  - unfold hits. cbn. reflexivity.
  - destruct tokens as [|a tokens]; [now rewrite !hits_nil|]. rewrite !hits_cons. cbn [ends child]. rewrite lookup_store.
    cbn [prefixb]. destruct (str_eqb_spec a k) as [->|N].
    + rewrite str_eqb_refl, IH. cbn. destruct (lookup k c); [|rewrite hits_empty, orb_false_r];
      destruct e, (prefixb p tokens); cbn; rewrite ?orb_true_r; reflexivity.
    + destruct (str_eqb_spec k a); [congruence|]. reflexivity.
Qed.
Lemma hits_make ps : forall t tokens, hits (fold_left (fun t p => insert p t) ps t) tokens = existsb (fun p => prefixb p tokens) ps || hits t tokens.
Proof.
  induction ps as [|p ps IH]; intros t tokens; cbn; [reflexivity|]. rewrite IH, hits_insert.
  destruct (prefixb p tokens), (existsb (fun p => prefixb p tokens) ps); reflexivity.
Qed.
Lemma insert_ends p t : p <> [] -> ends (insert p t) = ends t. Proof. destruct p, t; [congruence|reflexivity]. Qed.
Lemma walk_make ps tokens : Forall (fun p => p <> []) ps -> walk (make_trie ps) tokens = existsb (fun p => prefixb p tokens) ps.
Proof.
  intro F. pose proof (hits_make ps empty_trie tokens) as H. rewrite hits_empty, orb_false_r in H. rewrite <- H. unfold hits.
  replace (ends (fold_left _ ps empty_trie)) with false; [reflexivity|].
  assert (G : forall t, ends t = false -> ends (fold_left (fun t p => insert p t) ps t) = false).
  { clear H. induction F as [|p ps N F IH]; intros t E; cbn; [assumption|]. apply IH. now rewrite insert_ends. }
  symmetry. now apply G.
Qed.

(** splitting at colons *)
Lemma split_ne c s : split_on c s <> [].
Proof. destruct s as [|x s]; cbn; [discriminate|]. destruct (x =? c); [discriminate|]. destruct (split_on c s); discriminate. Qed.
Lemma split_join c s : s = hd [] (split_on c s) ++ flat_map (fun t => c :: t) (tl (split_on c s)) /\ Forall (fun w => ~ In c w) (split_on c s).
Proof.
  induction s as [|x s [IH1 IH2]]; cbn [split_on]; [split; [reflexivity|repeat constructor; tauto]|]. pose proof (split_ne c s).
  destruct (Z.eqb_spec x c) as [->|N]; cbn [hd tl flat_map app].
  - split; [|constructor; [tauto|assumption]]. destruct (split_on c s) as [|w r]; [congruence|]. cbn in *. now rewrite <- IH1.
  - destruct (split_on c s) as [|w r]; [congruence|]. cbn in *. split; [now rewrite <- IH1|]. inversion IH2; subst. constructor; [|assumption].
    intros [E|I]; [congruence|contradiction].
Qed.
Lemma split_plain c w : ~ In c w -> split_on c w = [w].
Proof.
  induction w as [|x w IH]; intro N; [reflexivity|]. cbn. destruct (Z.eqb_spec x c) as [->|D]; [exfalso; apply N; now left|].
  rewrite IH by (intro; apply N; now right). reflexivity.
Qed.
Lemma split_app c w s : ~ In c w -> split_on c (w ++ c :: s) = w :: split_on c s.
Proof.
  induction w as [|x w IH]; intro N; cbn; [now rewrite Z.eqb_refl|]. destruct (Z.eqb_spec x c) as [->|D]; [exfalso; apply N; now left|].
  rewrite IH by (intro; apply N; now right). reflexivity.
Qed.
Lemma split_written e parts : Forall no_colon (e :: parts) -> split_on colon (written e parts) = e :: parts.
Proof.
  unfold written. revert e. induction parts as [|p parts IH]; intros e F; inversion F; subst; cbn [flat_map].
  - rewrite app_nil_r. now apply split_plain.
  - cbn [app]. rewrite split_app by assumption. f_equal. now apply IH.
Qed.
Definition matchb (e : str) (tokens : list str) (p : str) : bool := str_eqb (event_of p) e && prefixb (args_of p) tokens.
Lemma matchb_ok e tokens p : matchb e tokens p = true <-> names p e tokens.
Proof.
  unfold matchb. rewrite andb_true_iff, str_eqb_eq, prefixb_ok. unfold names, event_of, args_of. split.
  - intros (<- & r & ->). exists (tl (split_on colon p)), r. destruct (split_join colon p) as [J F]. split; [exact J|]. split; [|reflexivity].
    pose proof (split_ne colon p). destruct (split_on colon p) as [|w q]; [congruence|]. exact F.
  - intros (parts & rest & -> & F & ->). rewrite split_written by assumption. cbn. eauto.
Qed.
Lemma some_names_ok l e tokens : existsb (matchb e tokens) l = true <-> some_names l e tokens.
Proof. rewrite existsb_exists. unfold some_names. split; intros (r & I & H); exists r; split; try assumption; now apply matchb_ok. Qed.
Lemma no_args_bare p : args_of p = [] -> p = event_of p.
Proof. unfold args_of, event_of. intro E. destruct (split_join colon p) as [J _]. rewrite E in J. cbn in J. now rewrite app_nil_r in J. Qed.
Lemma bare_no_args e p : event_of p = e -> p = e -> args_of p = [].
Proof.
  intros E ->. unfold event_of in E. unfold args_of. destruct (split_join colon e) as [J F]. destruct (split_on colon e) as [|w r] eqn:S; [reflexivity|]. cbn in *.
  subst w. destruct r as [|x r]; [reflexivity|]. cbn in J. exfalso. assert (L : List.length e = List.length (e ++ (colon :: x) ++ flat_map (fun t => colon :: t) r)) by exact (f_equal _ J).
  rewrite !app_length in L. cbn in L. lia.
Qed.

(** sorting and grouping *)
Lemma insert_sorted_perm x l : Permutation (insert_sorted x l) (x :: l).
Proof. induction l as [|y l IH]; cbn; [reflexivity|]. destruct (str_leb x y); [reflexivity|]. rewrite IH. apply perm_swap. Qed.
Lemma sorted_perm l : Permutation (sorted l) l.
Proof. induction l as [|x l IH]; cbn; [reflexivity|]. rewrite insert_sorted_perm. now constructor. Qed.
Lemma groupby_ok l : List.concat (map snd (groupby l)) = l /\ Forall (fun kg => snd kg <> [] /\ Forall (fun p => event_of p = fst kg) (snd kg)) (groupby l).
Proof.
  induction l as [|p l [IH1 IH2]]; cbn [groupby]; [split; [reflexivity|constructor]|].
  destruct (groupby l) as [|[k g] r] eqn:E; cbn in IH1.
  - subst l. split; [reflexivity|]. repeat constructor. discriminate.
  - inversion IH2 as [|? ? [N F] R]; subst. cbn in N, F. destruct (str_eqb_spec (event_of p) k) as [<-|D]; cbn.
    + split; [reflexivity|]. constructor; [|assumption]. cbn. split; [discriminate|]. now constructor.
    + split; [reflexivity|]. constructor; [|constructor; [split|]; assumption]. cbn. split; [discriminate|repeat constructor].
Qed.

Section Events.
Variable args : Type.
Variable arg : Type.
Variable arg_list : args -> list arg.
Variable to_str as_text : arg -> str.
Variable kind : arg -> command arg.
Variable is_none : arg -> bool.
Variable split_command : str -> list str.
Variable open_name : args -> option str.
Variable open_flags : args -> Z.
Variable inside_allowed : args -> bool.
Notation toks := (match_tokens args arg arg_list to_str as_text kind is_none split_command).
Notation lets := (lets_pass args arg arg_list to_str as_text kind is_none split_command open_name open_flags inside_allowed).
Notation audit_ := (audit args arg arg_list to_str as_text kind is_none split_command open_name open_flags inside_allowed).
Notation run_ := (run args arg arg_list to_str as_text kind is_none split_command open_name open_flags inside_allowed).
Notation permits := (permitted args toks open_name open_flags inside_allowed).
Notation defaults := (by_default args open_name open_flags inside_allowed).

Definition opposite (T : handler) : bool := negb (is_accept T).
(** what the handler of [e] answers after the update *)
Definition fallback (sp : dict) (T : handler) e a : bool :=
  match lookup e sp with Some h => lets h e a | None => opposite T end.
Lemma update1_ok T sp k g e (TT : T = HAccept \/ T = HReject) : g <> [] -> Forall (fun p => event_of p = k) g ->
  (e <> k -> lookup e (update1 T sp (k, g)) = lookup e sp) /\
  (e = k -> exists h, lookup e (update1 T sp (k, g)) = Some h /\
     forall a, lets h e a = if existsb (matchb e (toks e a)) g then is_accept T else fallback sp T e a).
Proof.
  intros N F. unfold update1. split.
  - intro D. destruct (existsb _ g); rewrite lookup_store; destruct (str_eqb_spec e k); congruence.
  - intros <-. destruct (existsb (fun g => str_eqb e g) g) eqn:B; rewrite lookup_store, str_eqb_refl; eexists; (split; [reflexivity|]); intro a.
    + apply existsb_exists in B as (p & I & E). apply str_eqb_eq in E. subst p.
      replace (existsb (matchb e (toks e a)) g) with true; [destruct TT as [-> | ->]; reflexivity|]. symmetry. apply existsb_exists. exists e. split; [assumption|].
      rewrite Forall_forall in F. specialize (F e I). unfold matchb. rewrite F, str_eqb_refl, (bare_no_args e e F eq_refl). reflexivity.
    + unfold prefix_handler. cbn [lets_pass]. rewrite walk_make.
      2:{ apply Forall_map. rewrite Forall_forall in *. intros p I E. apply no_args_bare in E. rewrite (F p I) in E. subst p.
          assert (existsb (fun g => str_eqb e g) g = true); [|congruence]. apply existsb_exists. exists e. split; [assumption|apply str_eqb_refl]. }
      replace (existsb (matchb e (toks e a)) g) with (existsb (fun p => prefixb p (toks e a)) (map args_of g)).
      2:{ clear B N. induction F as [|p g P F IH]; [reflexivity|]. cbn. rewrite IH. f_equal. unfold matchb. rewrite P, str_eqb_refl. reflexivity. }
      destruct (existsb _ (map args_of g)); [destruct TT as [-> | ->]; reflexivity|]. unfold fallback, opposite. destruct (lookup e sp); [reflexivity|]. destruct TT as [-> | ->]; reflexivity.
Qed.
Lemma update_ok T (TT : T = HAccept \/ T = HReject) e : forall G sp,
  Forall (fun kg => snd kg <> [] /\ Forall (fun p => event_of p = fst kg) (snd kg)) G ->
  ((forall p, In p (List.concat (map snd G)) -> event_of p <> e) -> lookup e (fold_left (update1 T) G sp) = lookup e sp) /\
  ((exists p, In p (List.concat (map snd G)) /\ event_of p = e) -> exists h, lookup e (fold_left (update1 T) G sp) = Some h /\
     forall a, lets h e a = if existsb (matchb e (toks e a)) (List.concat (map snd G)) then is_accept T else fallback sp T e a).
Proof.
  induction G as [|[k g] G IH]; intros sp F.
  - cbn. split; [reflexivity|]. intros (p & [] & _).
  - inversion F as [|? ? [N Fg] FG]; subst. cbn [fst snd] in N, Fg. cbn [fold_left map List.concat snd].
    destruct (update1_ok T sp k g e TT N Fg) as [U1 U2]. destruct (IH (update1 T sp (k, g)) FG) as [I1 I2].
    assert (KE : e <> k -> forall tk, existsb (matchb e tk) g = false).
    { intros D tk. clear - Fg D. induction Fg as [|p g P Fg IH]; [reflexivity|]. cbn. rewrite IH, orb_false_r. unfold matchb. rewrite P. destruct (str_eqb_spec k e); [congruence|reflexivity]. }
    split.
    + intro H. rewrite I1 by (intros p I; apply H, in_or_app; now right). apply U1. intros ->. destruct g as [|p g]; [congruence|]. inversion Fg; subst. apply (H p); [now left|reflexivity].
    + intros (p & I & E). destruct (str_eqb_spec e k) as [->|D].
      * destruct (U2 eq_refl) as (h & Lh & Hh).
        destruct (existsb (fun p => str_eqb (event_of p) k) (List.concat (map snd G))) eqn:X.
        -- apply existsb_exists in X as (q & Iq & Eq). apply str_eqb_eq in Eq. destruct (I2 (ex_intro _ q (conj Iq Eq))) as (h' & Lh' & Hh'). exists h'. split; [assumption|]. intro a.
           rewrite Hh', existsb_app. unfold fallback at 1. rewrite Lh, Hh. destruct (existsb (matchb k (toks k a)) g), (existsb (matchb k (toks k a)) (List.concat (map snd G))); reflexivity.
        -- assert (NX : forall q, In q (List.concat (map snd G)) -> event_of q <> k).
           { intros q Iq Eq. assert (existsb (fun p => str_eqb (event_of p) k) (List.concat (map snd G)) = true); [|congruence]. apply existsb_exists. exists q. split; [assumption|now apply str_eqb_eq]. }
           exists h. rewrite I1 by exact NX. split; [assumption|]. intro a. rewrite Hh, existsb_app.
           replace (existsb (matchb k (toks k a)) (List.concat (map snd G))) with false; [now rewrite orb_false_r|]. symmetry. apply not_true_iff_false. intro Y. apply existsb_exists in Y as (q & Iq & M).
           unfold matchb in M. apply andb_prop in M as [M _]. apply str_eqb_eq in M. now apply (NX q).
      * apply in_app_or in I as [I|I]; [rewrite Forall_forall in Fg; rewrite (Fg p I) in E; congruence|].
        destruct (I2 (ex_intro _ p (conj I E))) as (h' & Lh' & Hh'). exists h'. split; [assumption|]. intro a. rewrite Hh', existsb_app, (KE D). cbn [orb].
        unfold fallback. now rewrite (U1 D).
Qed.
Lemma update_special_ok T (TT : T = HAccept \/ T = HReject) e l sp :
  ((forall p, In p l -> event_of p <> e) -> lookup e (update_special l T sp) = lookup e sp) /\
  ((exists p, In p l /\ event_of p = e) -> exists h, lookup e (update_special l T sp) = Some h /\
     forall a, lets h e a = if existsb (matchb e (toks e a)) l then is_accept T else fallback sp T e a).
Proof.
  unfold update_special. destruct (groupby_ok (sorted l)) as [C F]. destruct (update_ok T TT e (groupby (sorted l)) sp F) as [U1 U2]. rewrite C in U1, U2.
  pose proof (sorted_perm l) as P. split.
  - intro H. apply U1. intros p I. apply H. eapply Permutation_in; eassumption.
  - intros (p & I & E). destruct U2 as (h & L & H).
    + exists p. split; [eapply Permutation_in; [symmetry; eassumption|assumption]|assumption].
    + exists h. split; [assumption|]. intro a. rewrite H. replace (existsb (matchb e (toks e a)) (sorted l)) with (existsb (matchb e (toks e a)) l); [reflexivity|].
      apply eq_iff_eq_true. rewrite !existsb_exists. split; intros (x & Ix & M); exists x; (split; [|assumption]); (eapply Permutation_in; [|exact Ix]); [symmetry|]; assumption.
Qed.

(** defaults *)
Lemma blocked_bits f : (Z.land f BLOCKED_OPEN_FLAGS =? 0) = true <-> ~ writes f.
Proof.
  assert (B : forall i, 0 <= i -> Z.testbit BLOCKED_OPEN_FLAGS i = true <-> In i [0; 1; 6; 7; 9; 10]).
  { intros i I. destruct (Z_lt_le_dec i 11) as [L|L].
    - assert (H : i = 0 \/ i = 1 \/ i = 2 \/ i = 3 \/ i = 4 \/ i = 5 \/ i = 6 \/ i = 7 \/ i = 8 \/ i = 9 \/ i = 10) by lia.
      repeat (destruct H as [->|H]; [vm_compute; intuition discriminate|]). subst. vm_compute. intuition discriminate.
    - rewrite Z.bits_above_log2; [|vm_compute; discriminate|eapply Z.lt_le_trans; [|exact L]; vm_compute; reflexivity].
      split; [discriminate|]. cbn. intuition lia. }
  rewrite Z.eqb_eq. unfold writes. split.
  - intros E (i & I & T). assert (0 <= i) by (cbn in I; intuition lia). apply B in I; [|assumption].
    assert (X : Z.testbit (Z.land f BLOCKED_OPEN_FLAGS) i = true) by (rewrite Z.land_spec, T, I; reflexivity). rewrite E, Z.bits_0 in X. discriminate.
  - intro N. apply Z.bits_inj'. intros i I. rewrite Z.land_spec, Z.bits_0. apply not_true_iff_false. intro H. apply andb_prop in H as [H1 H2].
    apply N. exists i. split; [now apply B|assumption].
Qed.
Lemma split_dot_family e f : ~ In 46 f -> hd [] (split_on 46 e) = f <-> e = f \/ exists more, e = f ++ [46] ++ more.
Proof.
  intro NF. split.
  - intros <-. destruct (split_join 46 e) as [J _]. destruct (tl (split_on 46 e)) as [|x r]; cbn in J.
    + left. now rewrite app_nil_r in J.
    + right. eexists. cbn. exact J.
  - intros [->|(more & ->)]; [now rewrite split_plain|]. cbn [app]. now rewrite split_app.
Qed.
Lemma outside_ok e : mem (hd [] (split_on 46 e)) rejected_families = true <-> outside e.
Proof.
  rewrite mem_in. unfold rejected_families. rewrite in_map_iff. unfold outside.
  assert (D : forall f, In f ["os"; "fcntl"; "ftplib"; "glob"; "imaplib"; "msvcrt"; "nntplib"; "pathlib"; "poplib";
    "shutil"; "smtplib"; "socket"; "sqlite3"; "subprocess"; "telnetlib"; "urllib"; "webbrowser"]%string -> ~ In 46 (of_string f)).
  { intros f I. cbn [In] in I. repeat (destruct I as [<-|I]; [vm_compute; intuition discriminate|]). contradiction. }
  split; intros (f & H1 & H2).
  - exists f. split; [assumption|]. symmetry in H1. apply (split_dot_family e _ (D f H2)) in H1. exact H1.
  - exists f. split; [|assumption]. symmetry. apply split_dot_family; [now apply D|]. exact H2.
Qed.
Definition plain (e : str) : bool :=
  if mem e rejected_events then false else if mem e accepted_events then true
  else if mem (hd [] (split_on 46 e)) rejected_families then false else true.
Lemma plain_ok e : plain e = true <-> always e.
Proof.
  unfold plain, always. pose proof (mem_in e rejected_events) as R. pose proof (mem_in e accepted_events) as A. pose proof (outside_ok e) as O.
  unfold registry_change, harmless. fold rejected_events accepted_events.
  change (map of_string ["winreg.CreateKey"; "winreg.DeleteKey"; "winreg.DeleteValue"; "winreg.SaveKey"; "winreg.SetValue"; "winreg.DisableReflectionKey"; "winreg.EnableReflectionKey"]%string) with rejected_events.
  change (map of_string ["os.putenv"; "os.unsetenv"; "msvcrt.heapmin"; "msvcrt.kbhit"; "glob.glob"; "msvcrt.get_osfhandle";
   "msvcrt.setmode"; "os.listdir"; "os.scandir"; "os.chdir"; "os.fwalk"; "os.getxattr"; "os.listxattr";
   "os.walk"; "pathlib.Path.glob"; "socket.gethostbyname"; "socket.__new__"; "socket.bind"; "socket.connect"]%string) with accepted_events.
  destruct (mem e rejected_events), (mem e accepted_events), (mem _ rejected_families); intuition (try discriminate); auto.
Qed.
Lemma make_plain sp e a : lookup e sp = None -> lets (make_handler sp e) e a = plain e.
Proof. intro L. unfold make_handler, plain. rewrite L. destruct (mem e rejected_events), (mem e accepted_events), (mem (hd [] (split_on 46 e)) rejected_families); reflexivity. Qed.
Lemma lookup_default e : lookup e default_special <> None <-> depends e.
Proof.
  unfold default_special, depends. cbn [lookup map].
  destruct (str_eqb_spec e (of_string "open")) as [->|]; [split; [intros _; now left|discriminate]|].
  destruct (str_eqb_spec e (of_string "subprocess.Popen")) as [->|]; [split; [intros _; right; now left|discriminate]|].
  destruct (str_eqb_spec e (of_string "os.posix_spawn")) as [->|]; [split; [intros _; right; right; now left|discriminate]|].
  destruct (str_eqb_spec e (of_string "msvcrt.open_osfhandle")) as [->|]; [split; [intros _; right; right; right; now left|discriminate]|].
  split; [congruence|]. cbn [In]. intuition congruence.
Qed.
Lemma default_ok e a : lets (make_handler default_special e) e a = true <-> defaults e a.
Proof.
  unfold by_default. destruct (lookup e default_special) as [h|] eqn:L.
  - assert (D : depends e) by (apply lookup_default; congruence). unfold make_handler. rewrite L.
    unfold depends in D. cbn [map In] in D. destruct D as [<-|[<-|[<-|[<-|[]]]]]; injection L as <-; cbn [lets_pass].
    + destruct (match open_name a with Some n => mem n _ | None => false end) eqn:N.
      * split; [intros _|reflexivity]. left. split; [reflexivity|]. destruct (open_name a) as [n|]; [|discriminate]. apply mem_in in N. destruct N as [<-|[<-|[]]]; auto.
      * rewrite blocked_bits. split; [intro; left; auto|]. intros [(_ & [H|[H|H]])|[(H & _)|[([H|H] & _)|(H & _)]]]; try discriminate H; try assumption.
        -- rewrite H in N. discriminate N. -- rewrite H in N. discriminate N. -- exfalso. apply H. now left.
    + split; [intro; right; right; left; auto|]. intros [(H & _)|[(H & _)|[(_ & H)|(H & _)]]]; try discriminate H; try assumption. exfalso. apply H. right. now left.
    + split; [intro; right; right; left; auto|]. intros [(H & _)|[(H & _)|[(_ & H)|(H & _)]]]; try discriminate H; try assumption. exfalso. apply H. right. right. now left.
    + rewrite blocked_bits. split; [intro; right; left; auto|]. intros [(H & _)|[(_ & H)|[([H|H] & _)|(H & _)]]]; try discriminate H; try assumption. exfalso. apply H. right. right. right. now left.
  - rewrite make_plain by assumption. rewrite plain_ok. assert (D : ~ depends e) by (intro D; apply lookup_default in D; congruence).
    split; [intro A; right; right; right; auto|]. intros [(E & _)|[(E & _)|[([E|E] & _)|(_ & A)]]]; try assumption; subst e; exfalso; apply D; unfold depends; cbn [map In]; auto.
Qed.

(** The table of handlers stands for the layers *)
Definition stands (sp : dict) (l : list rules) : Prop :=
  (forall e a, lets (make_handler sp e) e a = true <-> permits l e a) /\ (forall e, depends e -> lookup e sp <> None).
Definition coherent (w : wall) : Prop := forall e h, lookup e (cache w) = Some h -> h = make_handler (special_ w) e.
Lemma stands_default : stands default_special [].
Proof. split; [exact default_ok|]. intros e. apply lookup_default. Qed.
Lemma names_event l e tk : (forall p, In p l -> event_of p <> e) -> ~ some_names l e tk.
Proof. intros N H. apply some_names_ok in H. apply existsb_exists in H as (p & I & M). unfold matchb in M. apply andb_prop in M as [M _]. apply str_eqb_eq in M. now apply (N p). Qed.
Lemma bare_or l e : (exists p, In p l /\ event_of p = e) -> (forall tk, existsb (matchb e tk) l = true) \/ exists p, In p l /\ event_of p = e /\ narrowed p.
Proof.
  intros (p & I & E). destruct (args_of p) as [|x r] eqn:A.
  - left. intro tk. apply existsb_exists. exists p. split; [assumption|]. unfold matchb. now rewrite E, str_eqb_refl, A.
  - right. exists p. split; [assumption|]. split; [assumption|]. unfold narrowed. congruence.
Qed.
Lemma event_in l e : {exists p, In p l /\ event_of p = e} + {forall p, In p l -> event_of p <> e}.
Proof.
  destruct (existsb (fun p => str_eqb (event_of p) e) l) eqn:X.
  - left. apply existsb_exists in X as (p & I & E). apply str_eqb_eq in E. eauto.
  - right. intros p I E. assert (existsb (fun p => str_eqb (event_of p) e) l = true); [|congruence]. apply existsb_exists. exists p. split; [assumption|now apply str_eqb_eq].
Qed.
Lemma make_some sp e h : lookup e sp = Some h -> make_handler sp e = h. Proof. intro L. unfold make_handler. now rewrite L. Qed.
Lemma make_same sp sp' e : lookup e sp = lookup e sp' -> make_handler sp e = make_handler sp' e. Proof. intro L. unfold make_handler. now rewrite L. Qed.
Lemma stands_allow sp l al : stands sp l -> allow_ok al -> stands (update_special al HAccept sp) (Allow al :: l).
Proof.
  intros [S1 S2] OK. assert (U := fun e => update_special_ok HAccept (or_introl eq_refl) e al sp). split.
  - intros e a. cbn [permitted]. destruct (U e) as [U1 U2]. destruct (event_in al e) as [X|X].
    + destruct (U2 X) as (h & L & H). rewrite (make_some _ _ _ L), H. rewrite <- some_names_ok, <- S1.
      destruct (existsb (matchb e (toks e a)) al) eqn:M; [cbn; intuition|]. unfold fallback. destruct (lookup e sp) as [h0|] eqn:L0.
      * rewrite (make_some _ _ _ L0). intuition discriminate.
      * destruct (bare_or al e X) as [B|(p & I & E & N)]; [rewrite B in M; discriminate|]. subst e.
        assert (D : ~ depends (event_of p)) by (intro D; apply (S2 _ D); assumption). pose proof (OK p I N D) as A.
        rewrite (make_plain sp _ _ L0). rewrite plain_ok. cbn. intuition discriminate.
    + rewrite (make_same _ sp) by now apply U1. rewrite S1. pose proof (names_event al e (toks e a) X). tauto.
  - intros e D. destruct (U e) as [U1 U2]. destruct (event_in al e) as [X|X]; [destruct (U2 X) as (h & -> & _); discriminate|]. rewrite U1 by assumption. now apply S2.
Qed.
Lemma stands_reject sp l rj : stands sp l -> reject_ok rj -> stands (update_special rj HReject sp) (Reject rj :: l).
Proof.
  intros [S1 S2] OK. assert (U := fun e => update_special_ok HReject (or_intror eq_refl) e rj sp). split.
  - intros e a. cbn [permitted]. destruct (U e) as [U1 U2]. destruct (event_in rj e) as [X|X].
    + destruct (U2 X) as (h & L & H). rewrite (make_some _ _ _ L), H. rewrite <- some_names_ok, <- S1.
      destruct (existsb (matchb e (toks e a)) rj) eqn:M; [cbn; intuition discriminate|]. unfold fallback. destruct (lookup e sp) as [h0|] eqn:L0.
      * rewrite (make_some _ _ _ L0). intuition discriminate.
      * destruct (bare_or rj e X) as [B|(p & I & E & N)]; [rewrite B in M; discriminate|]. subst e.
        assert (D : ~ depends (event_of p)) by (intro D; apply (S2 _ D); assumption). pose proof (OK p I N D) as A.
        rewrite (make_plain sp _ _ L0). rewrite plain_ok. cbn. intuition discriminate.
    + rewrite (make_same _ sp) by now apply U1. rewrite S1. pose proof (names_event rj e (toks e a) X). tauto.
  - intros e D. destruct (U e) as [U1 U2]. destruct (event_in rj e) as [X|X]; [destruct (U2 X) as (h & -> & _); discriminate|]. rewrite U1 by assumption. now apply S2.
Qed.
Lemma permits_none l e a : permits (Allow [] :: l) e a <-> permits l e a.
Proof. cbn. split; [intros [(r & [] & _)|H]; exact H|tauto]. Qed.
Lemma stands_allow_opt sp l al : stands sp l -> allow_ok al -> stands (if nonempty al then update_special al HAccept sp else sp) (Allow al :: l).
Proof.
  intros S OK. destruct al; cbn [nonempty]; [|now apply stands_allow]. destruct S as [S1 S2]. split; [|assumption]. intros e a. rewrite S1.
  cbn. split; [tauto|intros [(r & [] & _)|H]; exact H].
Qed.
Lemma stands_reject_opt sp l rj : stands sp l -> reject_ok rj -> stands (if nonempty rj then update_special rj HReject sp else sp) (Reject rj :: l).
Proof.
  intros S OK. destruct rj; cbn [nonempty]; [|now apply stands_reject]. destruct S as [S1 S2]. split; [|assumption]. intros e a. rewrite S1.
  cbn. split; [intro H; split; [intros (r & [] & _)|exact H]|tauto].
Qed.
Lemma run_ok p : forall w l, prog_ok args p -> installed w = true -> stands (special_ w) l -> coherent w ->
  let '(t, o, w') := run_ p w in
  behaves args toks open_name open_flags inside_allowed (enabled_ w) l p t o /\
  enabled_ w' = enabled_ w /\ installed w' = true /\ special_ w' = special_ w /\ coherent w'.
Proof.
  induction p as [|e a|p IHp q IHq|p IHp|p IHp|al rj p IHp]; intros w l OK I S C; cbn [run].
  - repeat split; try assumption. constructor.
  - unfold audit. rewrite I. cbn [negb]. destruct (enabled_ w) eqn:E; cbn [negb].
    + set (h := match lookup e (cache w) with Some h => h | None => _ end).
      assert (H : h = make_handler (special_ w) e) by (subst h; destruct (lookup e (cache w)) eqn:L; [now apply C|reflexivity]).
      assert (C' : coherent (mkWall true true (special_ w) (store e h (cache w)))).
      { intros e' h'. cbn [cache special_]. rewrite lookup_store. destruct (str_eqb_spec e' e) as [->|N]; [intro X; injection X as <-; exact H|apply C]. }
      destruct S as [S1 S2]. pose proof (S1 e a) as P. rewrite <- H in P. destruct (lets h e a); (split; [|auto 10]).
      * apply b_event_pass. now apply P. * apply b_event_stop. intro X. apply P in X. discriminate.
    + split; [apply b_event_off|]. auto.
  - destruct OK as [OKp OKq]. specialize (IHp w l OKp I S C). destruct (run_ p w) as [[t o] w1]. destruct IHp as (B & E1 & I1 & S1 & C1).
    destruct o; [|split; [apply b_then_raise; [assumption|discriminate]|auto]..].
    assert (S' : stands (special_ w1) l) by (rewrite S1; exact S). specialize (IHq w1 l OKq I1 S' C1). destruct (run_ q w1) as [[t' o'] w2]. destruct IHq as (B' & E2 & I2 & S2 & C2).
    split; [apply b_then; [assumption|rewrite <- E1; assumption]|]. repeat split; congruence || assumption.
  - specialize (IHp w l OK I S C). destruct (run_ p w) as [[t o] w1]. destruct IHp as (B & R). split; [eapply b_attempt; eassumption|exact R].
  - destruct (enabled_ w) eqn:E; cbn [negb]; [|split; [apply b_opened_twice|auto]].
    specialize (IHp (mkWall false (installed w) (special_ w) (cache w)) l OK I S C). destruct (run_ p _) as [[t o] w1]. destruct IHp as (B & E1 & I1 & S1 & C1). cbn in *.
    split; [now apply b_opened|]. repeat split; try assumption.
  - destruct OK as (OA & OR & OKp). cbv zeta. rewrite I. cbv iota. cbn [negb andb]. rewrite I.
    set (sp := if nonempty rj then _ else _).
    assert (S' : stands sp (Reject rj :: Allow al :: l)) by (apply stands_reject_opt; [apply stands_allow_opt|]; assumption).
    set (ca := if nonempty al || nonempty rj then [] else cache w).
    assert (C' : coherent (mkWall true true sp ca)).
    { intros e h. cbn [cache special_]. subst ca sp. destruct al, rj; cbn [nonempty orb]; try discriminate. apply C. }
    specialize (IHp (mkWall true true sp ca) _ OKp eq_refl S' C'). destruct (run_ p _) as [[t o] w1]. destruct IHp as (B & E1 & I1 & S1 & C1). cbn in *.
    split; [now apply b_enabled|]. repeat split; try assumption.
Qed.
End Events.
