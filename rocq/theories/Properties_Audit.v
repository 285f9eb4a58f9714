(** C62, C63: the wall against side effects *)
From Coq Require Import ZArith List Bool Lia String.
Close Scope string_scope.
From Verif Require Import Py Str_Model Options_Model Audit_Model Audit_Spec Audit_Proofs.
Import ListNotations.
Open Scope Z_scope.
Arguments of_string _%string.

Section Events.
(** The arguments of events and what is looked at in them are arbitrary. *)
Variable args : Type.
Variable arg : Type.
Variable arg_list : args -> list arg.
Variable to_str as_text : arg -> str.
Variable kind : arg -> command arg.
Variable is_none : arg -> bool.
Variable split_command : str -> list str.
Variable open_name : args -> option str.
Variable open_flags : args -> Z.
Variable inside_allowed : args -> bool.
Notation toks := (match_tokens args arg arg_list to_str as_text kind is_none split_command).
Notation audit_ := (audit args arg arg_list to_str as_text kind is_none split_command open_name open_flags inside_allowed).
Notation run_ := (run args arg arg_list to_str as_text kind is_none split_command open_name open_flags inside_allowed).
Notation behaves_ := (behaves args toks open_name open_flags inside_allowed).
Notation defaults := (by_default args open_name open_flags inside_allowed).
Notation proposal_ := (proposal args arg arg_list to_str as_text kind is_none split_command).

(** Full statement: whatever a program does, whatever events it raised before and however
    its contexts nest, an event takes effect exactly when the rules in force permit it (or the wall is
    opened), and the wall is the same afterwards.
    Proved when every rule that names arguments is for an event that depends on its
    arguments, or which is rejected by default (for rules that allow) or let pass by default (for rules
    that reject).  Without that it fails, see below. *)
Theorem C62_wall_partial : forall unblock p,
  ~ In (of_string "EVERYTHING") unblock -> allow_ok unblock -> prog_ok args p ->
  let '(t, o, w) := run_ p (engage unblock initial) in
  behaves_ true [Allow unblock] p t o /\ enabled_ w = true /\ installed w = true /\ special_ w = special_ (engage unblock initial).
Proof.
  intros unblock p E A P. unfold engage. replace (mem everything unblock) with false by (symmetry; apply not_true_iff_false; rewrite mem_in; exact E).
  set (w0 := mkWall _ _ _ _).
  assert (S : stands args arg arg_list to_str as_text kind is_none split_command open_name open_flags inside_allowed (special_ w0) [Allow unblock])
    by (apply stands_allow; [apply stands_default|exact A]).
  pose proof (run_ok args arg arg_list to_str as_text kind is_none split_command open_name open_flags inside_allowed p w0 [Allow unblock] P eq_refl S) as R.
  destruct (run_ p w0) as [[t o] w]. destruct R as (B & E1 & I1 & S1 & _); [intros e h; discriminate|]. auto.
Qed.

(** Without rules and unless CrossHair opens the wall itself: every event that takes effect
    is let pass by default. *)
Fixpoint never_opens (p : prog args) : Prop :=
  match p with
  | Skip _ | Event _ _ _ => True
  | Then _ p q => never_opens p /\ never_opens q
  | Attempt _ p => never_opens p
  | Opened _ _ => False
  | Enabled _ allow _ p => allow = [] /\ never_opens p
  end.
Lemma behaves_effects b l p t o : behaves_ b l p t o -> b = true -> never_opens p ->
  (forall e a, permitted args toks open_name open_flags inside_allowed l e a -> defaults e a) ->
  forall e a, In (Effect _ e a) t -> defaults e a.
Proof.
  induction 1 as [| |l e a H|l e a H|b l p q t t' o H1 IH1 H2 IH2|b l p q t o H IH D|b l p t o H IH|l p t o H IH| |b l al rj p t o H IH];
  intros B N L e' a' I; cbn in N; try discriminate; try contradiction.
  - destruct I as [I|[]]. injection I as -> ->. now apply L.
  - destruct I as [I|[]]. discriminate.
  - apply in_app_or in I as [I|I]; [apply IH1|apply IH2]; tauto.
  - apply IH; tauto.
  - apply IH; assumption.
  - destruct N as [-> N]. apply IH; try assumption; [reflexivity|]. cbn. intros e a [_ [(r & [] & _)|P]]. now apply L.
Qed.
Theorem C62_no_side_effects : forall p t o w, never_opens p -> prog_ok args p ->
  run_ p (engage [] initial) = (t, o, w) -> forall e a, In (Effect _ e a) t -> defaults e a.
Proof.
  intros p t o w N P R e a I. pose proof (C62_wall_partial [] p (fun x => x)) as H. rewrite R in H. destruct H as (B & _); [intros q []|assumption|].
  refine (behaves_effects _ _ _ _ _ B eq_refl N _ e a I). intros e' a' [(r & [] & _)|D]. exact D.
Qed.
(** So no file is opened for writing, no process started, nothing sent. *)
Theorem C62_default_refuses : forall e a, defaults e a ->
  ~ registry_change e /\
  (outside e -> harmless e \/ (depends e /\ (inside_allowed a = true \/ ~ writes (open_flags a)))) /\
  (e = of_string "open" -> writes (open_flags a) -> open_name a = Some (of_string "/dev/null") \/ open_name a = Some (of_string "nul")).
Proof.
  intros e a D. unfold by_default in D. destruct D as [(-> & D)|[(-> & D)|[(E & D)|(N & (R & D))]]].
  - split; [vm_compute; intuition discriminate|]. split; [|tauto]. intros (f & I & [X|(m & X)]); exfalso; cbn [In] in I;
    repeat (destruct I as [<-|I]; [discriminate X|]); contradiction.
  - split; [vm_compute; intuition discriminate|]. split; [intros _; right; split; [right; right; right; now left|now right]|discriminate].
  - assert (X : depends e) by (destruct E as [-> | ->]; [right; now left|right; right; now left]). split; [destruct E as [-> | ->]; vm_compute; intuition discriminate|].
    split; [intros _; right; auto|]. destruct E as [-> | ->]; discriminate.
  - split; [assumption|]. split; [tauto|]. intros ->. exfalso. apply N. now left.
Qed.
(** [EVERYTHING] turns the wall off. *)
Theorem C62_everything : forall unblock e a, In (of_string "EVERYTHING") unblock -> fst (audit_ (engage unblock initial) e a) = true.
Proof. intros unblock e a I. unfold engage. apply mem_in in I. fold everything in I. rewrite I. reflexivity. Qed.

(** C63.  The rule a message proposes, or any shorter form of it down to the name of the
    event, does allow the operation, whatever other rules are given.  Full statement: for
    every event.  Proved for events with no colon in the rule's part of the arguments; it fails with
    one, see below. *)
Lemma proposal_text e a : proposal_ e a = written e (toks e a). Proof. reflexivity. Qed.
Theorem C63_proposal_partial : forall unblock e a n,
  Forall no_colon (e :: firstn n (toks e a)) -> In (written e (firstn n (toks e a))) unblock ->
  fst (audit_ (engage unblock initial) e a) = true.
Proof.
  intros unblock e a n F I. unfold engage. destruct (mem everything unblock); [reflexivity|]. unfold audit, initial. cbn [installed enabled_ negb cache lookup fst special_].
  destruct (update_special_ok args arg arg_list to_str as_text kind is_none split_command open_name open_flags inside_allowed HAccept (or_introl eq_refl) e unblock default_special) as [_ U].
  destruct U as (h & L & H).
  - eexists. split; [exact I|]. unfold event_of. now rewrite split_written.
  - rewrite (make_some _ _ _ L), H. replace (existsb _ unblock) with true; [reflexivity|]. symmetry. apply some_names_ok. eexists. split; [exact I|].
    exists (firstn n (toks e a)), (skipn n (toks e a)). split; [reflexivity|]. split; [assumption|]. symmetry. apply firstn_skipn.
Qed.
(** The arguments that rules name: for an event that starts a process, its command line
    word by word, however the platform reports it; for the others, the arguments of the event. *)
Theorem C63_tokens : forall e a,
  (forall exe cmd more l, In e (map of_string ["subprocess.Popen"; "os.posix_spawn"]%string) -> arg_list a = exe :: cmd :: more ->
     kind cmd = Sequence _ l -> l <> [] -> toks e a = map as_text l) /\
  (forall exe cmd more w l, In e (map of_string ["subprocess.Popen"; "os.posix_spawn"]%string) -> arg_list a = exe :: cmd :: more ->
     kind cmd = Text _ -> split_command (as_text cmd) = w :: l -> toks e a = w :: l) /\
  (~ In e (map of_string ["subprocess.Popen"; "os.posix_spawn"]%string) -> toks e a = map to_str (arg_list a)).
Proof.
  intros e a. unfold match_tokens. split; [|split].
  - intros exe cmd more l I L K N. replace (mem e spawn_events) with true by (symmetry; now apply mem_in). rewrite L, K. destruct l as [|x l]; [congruence|]. reflexivity.
  - intros exe cmd more w l I L K W. replace (mem e spawn_events) with true by (symmetry; now apply mem_in). rewrite L, K, W. reflexivity.
  - intro N. replace (mem e spawn_events) with false; [reflexivity|]. symmetry. apply not_true_iff_false. now rewrite mem_in.
Qed.
(** Rules say nothing about other events. *)
Theorem C63_other_events : forall unblock e a,
  ~ In (of_string "EVERYTHING") unblock -> (forall p, In p unblock -> hd [] (split_on colon p) <> e) ->
  fst (audit_ (engage unblock initial) e a) = fst (audit_ (engage [] initial) e a).
Proof.
  intros unblock e a E N. unfold engage. replace (mem everything unblock) with false by (symmetry; apply not_true_iff_false; rewrite mem_in; exact E).
  unfold audit, initial. cbn [installed enabled_ negb cache lookup fst special_ mem existsb].
  destruct (update_special_ok args arg arg_list to_str as_text kind is_none split_command open_name open_flags inside_allowed HAccept (or_introl eq_refl) e unblock default_special) as [U _].
  f_equal. apply make_same. rewrite U by exact N. reflexivity.
Qed.
End Events.

(** Events whose arguments are strings; the flags of an open are given by their number *)
Definition xargs := (list str * Z)%type.
Definition xaudit := audit xargs str fst (fun s => s) (fun s => s) (fun _ => Text str) (fun _ => false) (fun s => split_on 32 s) (fun a => hd_error (fst a)) snd (fun _ => false).
Definition xrun := run xargs str fst (fun s => s) (fun s => s) (fun _ => Text str) (fun _ => false) (fun s => split_on 32 s) (fun a => hd_error (fst a)) snd (fun _ => false).
Definition xproposal := proposal xargs str fst (fun s => s) (fun s => s) (fun _ => Text str) (fun _ => false) (fun s => split_on 32 s).
Definition xpermitted := permitted xargs (match_tokens xargs str fst (fun s => s) (fun s => s) (fun _ => Text str) (fun _ => false) (fun s => split_on 32 s)) (fun a => hd_error (fst a)) snd (fun _ => false).
Definition ev (e : string) (l : list string) : prog xargs := Event _ (of_string e) (map of_string l, 0).
Arguments ev _%string _%string.
(** Unblocking an operation on some arguments blocks it on the others, although it was let
    pass without the rule. *)
Theorem C62_narrow_allow_refuted : exists unblock e a,
  xpermitted [Allow unblock] e a /\ fst (xaudit (engage [] initial) e a) = true /\ fst (xaudit (engage unblock initial) e a) = false.
Proof.
  exists [of_string "os.listdir:/tmp"], (of_string "os.listdir"), ([of_string "/"], 0). split; [|split; vm_compute; reflexivity].
  right. cbn. right. right. right. split; [vm_compute; intuition discriminate|]. split; [vm_compute; intuition discriminate|]. left. vm_compute. tauto.
Qed.
(** A rule that rejects an operation on some arguments lets it pass on the others, although
    it was blocked without the rule. *)
Theorem C62_narrow_reject_refuted : exists reject e a,
  xrun (Enabled _ [] [] (Event _ e a)) (engage [] initial) = ([Stopped _ e a], SideEffectDetected, engage [] initial) /\
  xrun (Enabled _ [] reject (Event _ e a)) (engage [] initial) = ([Effect _ e a], Done, engage [] initial).
Proof. exists [of_string "os.system:rm"], (of_string "os.system"), ([of_string "ls"], 0). split; vm_compute; reflexivity. Qed.
(** Engaging the wall after a region was checked with its own wall leaves it off. *)
Theorem C62_engage_later_refuted : exists e a,
  fst (xaudit (engage [] initial) e a) = false /\
  let '(_, _, w) := xrun (Enabled _ [] [] (Skip _)) initial in fst (xaudit (engage [] w) e a) = true.
Proof. exists (of_string "os.system"), ([of_string "ls"], 0). split; vm_compute; reflexivity. Qed.
(** The rule proposed for an argument with a colon in it does not work. *)
Theorem C63_proposal_refuted : exists e a,
  fst (xaudit (engage [] initial) e a) = false /\ fst (xaudit (engage [xproposal e a] initial) e a) = false.
Proof. exists (of_string "urllib.Request"), ([of_string "http://localhost/"], 0). split; vm_compute; reflexivity. Qed.

(** Witnesses *)
Example C62_ex_run :
  let '(t, o, w) := xrun (Then _ (Attempt _ (ev "os.remove" ["a"]%string)) (Then _ (ev "os.listdir" ["a"]%string) (Then _ (Opened _ (ev "os.remove" ["b"]%string))
     (Enabled _ [of_string "os.remove:c"] [of_string "os.listdir"] (Then _ (ev "os.remove" ["c"]%string) (ev "os.listdir" ["a"]%string)))))) (engage [of_string "subprocess.Popen:echo"] initial) in
  (t, o) = ([Stopped _ (of_string "os.remove") ([of_string "a"], 0); Effect _ (of_string "os.listdir") ([of_string "a"], 0);
             Effect _ (of_string "os.remove") ([of_string "b"], 0); Effect _ (of_string "os.remove") ([of_string "c"], 0);
             Stopped _ (of_string "os.listdir") ([of_string "a"], 0)], SideEffectDetected).
Proof. vm_compute. reflexivity. Qed.
Lemma not_always e f m : In f ["os"; "socket"]%string -> e = of_string f ++ of_string "." ++ m -> ~ harmless e -> ~ always e.
Proof. intros I E H [_ [X|X]]; [contradiction|]. apply X. exists f. split; [cbn in I |- *; tauto|eauto]. Qed.
Example C62_ex_ok : prog_ok xargs (Enabled _ [of_string "os.remove:c"] [of_string "os.listdir"; of_string "os.listdir:x"] (ev "os.remove" ["c"]%string)) /\ allow_ok [of_string "subprocess.Popen:echo"].
Proof.
  split; [split; [|split; [|exact I]]|]; intros p [<-|P] N D.
  - eapply (not_always _ "os" (of_string "remove")); [now left|reflexivity|vm_compute; intuition discriminate].
  - destruct P.
  - exfalso. apply N. reflexivity.
  - destruct P as [<-|[]]. split; [vm_compute; intuition discriminate|]. left. vm_compute. tauto.
  - exfalso. apply D. vm_compute. auto.
  - destruct P.
Qed.
Example C63_ex : xproposal (of_string "subprocess.Popen") ([of_string "echo"; of_string "echo hello"], 0) = of_string "subprocess.Popen:echo:hello" /\
  fst (xaudit (engage [of_string "os.x"; of_string "subprocess.Popen:echo"] initial) (of_string "subprocess.Popen") ([of_string "echo"; of_string "echo hello"], 0)) = true /\
  fst (xaudit (engage [of_string "subprocess.Popen:date"] initial) (of_string "subprocess.Popen") ([of_string "echo"; of_string "echo hello"], 0)) = false /\
  fst (xaudit (engage [] initial) (of_string "open") ([of_string "f"], 577)) = false /\
  fst (xaudit (engage [] initial) (of_string "open") ([of_string "f"], 524288)) = true.
Proof. vm_compute. auto. Qed.

Print Assumptions C62_wall_partial.
Print Assumptions C62_no_side_effects.
Print Assumptions C62_default_refuses.
Print Assumptions C62_everything.
Print Assumptions C62_narrow_allow_refuted.
Print Assumptions C62_narrow_reject_refuted.
Print Assumptions C62_engage_later_refuted.
Print Assumptions C63_proposal_partial.
Print Assumptions C63_tokens.
Print Assumptions C63_other_events.
Print Assumptions C63_proposal_refuted.
