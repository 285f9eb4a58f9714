(** Proofs about the messages shown in an editor. *)
From Coq Require Import List Bool Arith Lia.
From Verif Require Import Lsp_Model Lsp_Spec.
Import ListNotations.

Lemma get_put V (d : list (nat * V)) k v k' : get (put d k v) k' = if Nat.eqb k k' then Some v else get d k'.
Proof.
  induction d as [|[a b] d IH]; cbn; [reflexivity|].
  destruct (Nat.eqb_spec a k) as [->|N]; cbn.
  - destruct (Nat.eqb_spec k k'); reflexivity.
  - destruct (Nat.eqb_spec a k') as [->|N']; [|apply IH].
    destruct (Nat.eqb_spec k k'); [congruence|reflexivity].
Qed.
Lemma in_put V (d : list (nat * V)) k v k' : In k' (map fst (put d k v)) -> k' = k \/ In k' (map fst d).
Proof.
  induction d as [|[a b] d IH]; cbn; [intros [<-|[]]; auto|].
  destruct (Nat.eqb_spec a k) as [->|N]; cbn; intros [<-|H]; auto. destruct (IH H); auto.
Qed.
Lemma nodup_put V (d : list (nat * V)) k v : NoDup (map fst d) -> NoDup (map fst (put d k v)).
Proof.
  induction d as [|[a b] d IH]; cbn; [repeat constructor; auto|].
  inversion 1 as [|? ? Hn Hd]; subst. destruct (Nat.eqb_spec a k) as [->|N]; cbn; constructor; auto.
  intros I. apply in_put in I as [->|I]; auto.
Qed.
Lemma in_del V (d : list (nat * V)) k k' : In k' (map fst (del d k)) -> In k' (map fst d).
Proof.
  induction d as [|[a b] d IH]; cbn; [auto|]. destruct (Nat.eqb a k); cbn; [auto|]. intros [<-|H]; auto.
Qed.
Lemma nodup_del V (d : list (nat * V)) k : NoDup (map fst d) -> NoDup (map fst (del d k)).
Proof.
  induction d as [|[a b] d IH]; cbn; [auto|]. inversion 1 as [|? ? Hn Hd]; subst.
  destruct (Nat.eqb a k); cbn; [auto|]. constructor; auto. intros I. apply in_del in I; auto.
Qed.
Lemma get_None V (d : list (nat * V)) k : ~ In k (map fst d) -> get d k = None.
Proof.
  induction d as [|[a b] d IH]; cbn; [auto|]. intros H. destruct (Nat.eqb_spec a k) as [->|N]; [tauto|]. apply IH; tauto.
Qed.
Lemma get_del V (d : list (nat * V)) k k' : NoDup (map fst d) -> get (del d k) k' = if Nat.eqb k k' then None else get d k'.
Proof.
  induction d as [|[a b] d IH]; cbn; [destruct (Nat.eqb k k'); reflexivity|].
  inversion 1 as [|? ? Hn Hd]; subst. destruct (Nat.eqb_spec a k) as [->|N]; cbn.
  - destruct (Nat.eqb_spec k k') as [->|]; [|reflexivity]. now apply get_None.
  - destruct (Nat.eqb_spec a k') as [->|N']; [|now apply IH]. destruct (Nat.eqb_spec k k'); [congruence|reflexivity].
Qed.
Lemma get_In V (d : list (nat * V)) k v : NoDup (map fst d) -> In (k, v) d -> get d k = Some v.
Proof.
  induction d as [|[a b] d IH]; cbn; [intros _ []|]. inversion 1 as [|? ? Hn Hd]; subst. intros [E|I].
  - injection E as -> ->. now rewrite Nat.eqb_refl.
  - destruct (Nat.eqb_spec a k) as [->|N]; [|auto]. exfalso. apply Hn. now apply (in_map fst) in I.
Qed.
Lemma In_get V (d : list (nat * V)) k v : get d k = Some v -> In (k, v) d.
Proof.
  induction d as [|[a b] d IH]; cbn; [discriminate|]. destruct (Nat.eqb_spec a k) as [->|N]; [intros [= ->]; auto|auto].
Qed.

(** * Any order of the steps of the two threads *)
Definition task_slot (t : task) : slot := match t with TPublish _ s | TRestart _ s => s end.
Definition quiet (u : uri) (s : server) : Prop :=
  get (active s) u = Some Editing /\ client s u = [] /\ forall t, In t (jobs s) -> concerns u t = true -> task_slot t = Editing.
Definition keys_ok (s : server) : Prop := NoDup (map fst (active s)).
Lemma report_keys a u l m : NoDup (map fst a) -> NoDup (map fst (report a u l m)).
Proof.
  intros H. unfold report.
  assert (H1 : NoDup (map fst (match get a u with None => put a u (Msgs []) | Some _ => a end)))
    by (destruct (get a u); [exact H|now apply nodup_put]).
  revert H1. generalize (match get a u with None => put a u (Msgs []) | Some _ => a end). intros a1 H1.
  destruct (get a1 u) as [[|ms]|]; [exact H1| |exact H1].
  destruct (get ms l) as [o|]; [destruct (rank o <? rank m); [|exact H1]|]; now apply nodup_put.
Qed.
Lemma step_keys s e : keys_ok s -> keys_ok (step s e).
Proof.
  unfold keys_ok. destruct s as [a j c]. destruct e; cbn; intros H; try (now apply nodup_put);
    destruct j as [|[v [|l0]|v sl] j]; cbn; auto; try (now apply report_keys); try (now apply nodup_put).
  destruct (diagnostics l0); [now apply nodup_del|exact H].
Qed.
Lemma report_get a u l m v : get (report a u l m) v =
  if Nat.eqb u v then match get a u with
    | Some Editing => Some Editing
    | o => let ms := match o with Some (Msgs ms) => ms | _ => [] end in
           Some (Msgs (match get ms l with None => put ms l m | Some old => if rank old <? rank m then put ms l m else ms end))
    end else get a v.
Proof.
  unfold report. destruct (get a u) as [[|ms]|] eqn:E.
  - rewrite E. destruct (Nat.eqb_spec u v) as [<-|]; [exact E|reflexivity].
  - rewrite E. destruct (get ms l) as [o|] eqn:E2; [destruct (rank o <? rank m)|]; rewrite ?get_put; cbv zeta; rewrite ?E2;
      destruct (Nat.eqb_spec u v) as [<-|]; try reflexivity. exact E.
  - rewrite get_put, Nat.eqb_refl. cbn [get]. cbn zeta. rewrite !get_put. destruct (Nat.eqb u v); reflexivity.
Qed.
Lemma quiet_step u s e : keys_ok s -> quiet u s -> (about u e = true -> exists v, e = Change v \/ e = Close v) ->
  quiet u (step s e).
Proof.
  intros K (Ha & Hc & Hj) He. destruct s as [a j c]. unfold quiet in *. cbn [active jobs client] in *.
  assert (Hpub : forall v, publish c v [] u = []) by (intros v; unfold publish; destruct (Nat.eqb u v); auto).
  destruct e as [v|v|v|v|v l m| | |]; cbn [step active jobs client].
  - rewrite get_put. destruct (Nat.eqb v u); auto.
  - rewrite get_put. destruct (Nat.eqb v u); auto.
  - cbn [about] in He. rewrite get_put. destruct (Nat.eqb v u); [destruct He as [? [?|?]]; auto; discriminate|auto].
  - cbn [about] in He. rewrite get_put. destruct (Nat.eqb v u); [destruct He as [? [?|?]]; auto; discriminate|auto].
  - destruct j; cbn [active jobs client]; [|auto]. rewrite report_get. destruct (Nat.eqb_spec v u) as [->|]; [rewrite Ha|]; auto.
  - destruct j; cbn [active jobs client]; [|auto]. split; [exact Ha|split; [exact Hc|]].
    intros t I. apply in_map_iff in I as ([k sl] & <- & I). cbn. intros E. apply Nat.eqb_eq in E. subst k.
    apply (get_In _ _ _ _ K) in I. cbn [active] in I. congruence.
  - destruct j; cbn [active jobs client]; [|auto]. split; [exact Ha|split; [exact Hc|]].
    intros t I. apply in_map_iff in I as ([k sl] & <- & I). cbn. intros E. apply Nat.eqb_eq in E. subst k.
    apply (get_In _ _ _ _ K) in I. cbn [active] in I. congruence.
  - destruct j as [|[v sl|v sl] j]; cbn [active jobs client].
    + auto.
    + destruct sl as [|ms]; cbn [active jobs client]; [repeat split; auto; intros; apply Hj; cbn; auto|].
      assert (N : Nat.eqb v u = false). { destruct (Nat.eqb v u) eqn:E; [|reflexivity].
        specialize (Hj _ (or_introl eq_refl) E). discriminate Hj. }
      split; [|split].
      * destruct (diagnostics ms); [|exact Ha]. rewrite get_del; [|exact K]. rewrite N. exact Ha.
      * unfold publish. rewrite Nat.eqb_sym, N. exact Hc.
      * intros t I. apply Hj. now right.
    + split; [|split; [exact Hc|intros t I; apply Hj; now right]].
      rewrite get_put. destruct (Nat.eqb v u) eqn:E; [|exact Ha].
      specialize (Hj _ (or_introl eq_refl) E). cbn in Hj. now rewrite Hj.
Qed.
Lemma quiet_enter u s e : (e = Change u \/ e = Close u) ->
  (forall t, In t (jobs s) -> concerns u t = false) -> quiet u (step s e).
Proof.
  intros [-> | ->] Hj; unfold quiet; cbn [step active client jobs]; unfold publish; rewrite get_put, !Nat.eqb_refl;
    (split; [reflexivity|split; [reflexivity|]]); intros t I E; rewrite (Hj t I) in E; discriminate.
Qed.
Lemma being_edited_app u h e : being_edited u (rev (h ++ [e])) =
  match e with Change v | Close v => if Nat.eqb v u then true else being_edited u (rev h)
  | Open v | Save v => if Nat.eqb v u then false else being_edited u (rev h) | _ => being_edited u (rev h) end.
Proof. rewrite rev_app_distr. cbn [rev app being_edited]. destruct e; reflexivity. Qed.
Lemma undisturbed_app u s h k : undisturbed u s (h ++ k) <-> undisturbed u s h /\ undisturbed u (run s h) k.
Proof. revert s. induction h as [|e h IH]; cbn; intros s; [tauto|]. rewrite IH. unfold run. cbn. tauto. Qed.
Lemma run_app s h k : run s (h ++ k) = run (run s h) k.
Proof. apply fold_left_app. Qed.
Lemma run_keys h : keys_ok (run initial h).
Proof.
  induction h as [|e h IH] using rev_ind; [constructor|]. rewrite run_app. now apply step_keys.
Qed.
Theorem edited_quiet u h : undisturbed u initial h -> being_edited u (rev h) = true -> quiet u (run initial h).
Proof.
  induction h as [|e h IH] using rev_ind; [discriminate|].
  rewrite undisturbed_app, being_edited_app, run_app. cbn [undisturbed run fold_left]. intros (U & D & _) E.
  destruct e as [v|v|v|v|v l m| | |]; cbn [about] in *;
    try (destruct (Nat.eqb_spec v u) as [->|N]);
    try discriminate;
    try (apply quiet_enter; [auto|now apply D]);
    (apply quiet_step; [apply run_keys|auto|cbn [about]; try discriminate]);
    intros X; apply Nat.eqb_eq in X; contradiction.
Qed.

(** * Whole actions *)
(** The jobs of a loop over the entries, each with its own document *)
Lemma run_cons s e h : run s (e :: h) = run (step s e) h.
Proof. reflexivity. Qed.
Lemma restart_loop : forall todo a c, NoDup (map fst todo) ->
  let s := run (Server a (map (fun p => TRestart (fst p) (snd p)) todo) c) (repeat Next (length todo)) in
  jobs s = [] /\ client s = c /\
  forall u, get (active s) u = match get todo u with Some Editing => Some Editing | Some (Msgs _) => Some (Msgs []) | None => get a u end.
Proof.
  induction todo as [|[k v] todo IH]; intros a c N; [cbn; auto|].
  cbn [length repeat map fst snd] in *. inversion N as [|? ? Hn Hd]; subst. cbv zeta. rewrite run_cons. cbn [step jobs active client].
  destruct (IH (put a k (match v with Editing => Editing | Msgs _ => Msgs [] end)) c Hd) as (H1 & H2 & H3).
  split; [exact H1|split; [exact H2|]]. intros u. rewrite H3, get_put. cbn [get].
  destruct (Nat.eqb_spec k u) as [->|]; [|reflexivity]. rewrite (get_None _ _ _ Hn). destruct v; reflexivity.
Qed.
Lemma publish_loop : forall todo a c, NoDup (map fst todo) -> NoDup (map fst a) ->
  let s := run (Server a (map (fun p => TPublish (fst p) (snd p)) todo) c) (repeat Next (length todo)) in
  jobs s = [] /\ NoDup (map fst (active s)) /\
  forall u, match get todo u with
            | Some (Msgs l) => client s u = diagnostics l /\ get (active s) u = match diagnostics l with [] => None | _ => get a u end
            | _ => client s u = c u /\ get (active s) u = get a u
            end.
Proof.
  induction todo as [|[k v] todo IH]; intros a c N Na; [cbn; auto|].
  cbn [length repeat map fst snd] in *. inversion N as [|? ? Hn Hd]; subst. cbv zeta. rewrite run_cons.
  destruct v as [|l].
  - cbn [step jobs active client]. destruct (IH a c Hd Na) as (H1 & H2 & H3). split; [exact H1|split; [exact H2|]]. intros u. specialize (H3 u). cbn [get].
    destruct (Nat.eqb_spec k u) as [->|]; [|exact H3]. now rewrite (get_None _ _ _ Hn) in H3.
  - set (a1 := match diagnostics l with [] => del a k | _ => a end).
    change (step (Server a (TPublish k (Msgs l) :: map (fun p => TPublish (fst p) (snd p)) todo) c) Next)
      with (Server a1 (map (fun p => TPublish (fst p) (snd p)) todo) (publish c k (diagnostics l))).
    assert (Na1 : NoDup (map fst a1)) by (subst a1; destruct (diagnostics l); [now apply nodup_del|exact Na]).
    destruct (IH a1 (publish c k (diagnostics l)) Hd Na1) as (H1 & H2 & H3).
    split; [exact H1|split; [exact H2|]]. intros u. specialize (H3 u). cbn [get].
    assert (Ga : get a1 u = match diagnostics l with [] => if Nat.eqb k u then None else get a u | _ => get a u end).
    { subst a1. destruct (diagnostics l); [now apply get_del|reflexivity]. }
    destruct (Nat.eqb_spec k u) as [->|Nk].
    + rewrite (get_None _ _ _ Hn) in H3. destruct H3 as (H3 & H4). rewrite H3, H4, Ga.
      unfold publish. rewrite Nat.eqb_refl. destruct (diagnostics l); auto.
    + assert (G2 : get a1 u = get a u) by (rewrite Ga; destruct (diagnostics l); reflexivity).
      assert (P2 : publish c k (diagnostics l) u = c u) by (unfold publish; destruct (Nat.eqb_spec u k); [congruence|reflexivity]).
      destruct (get todo u) as [[|l']|]; rewrite G2, ?P2 in H3; exact H3.
Qed.

Definition low (o : option message) : Prop := match o with None => True | Some m => rank m < 2 end.
Definition same (x y : option message) : Prop := x = y \/ (low x /\ low y).
(** the message of a line after reports *)
Definition better (o : option message) (m : message) : option message :=
  match o with None => Some m | Some x => if rank x <? rank m then Some m else Some x end.
Definition worst (l : nat) (r : list (nat * message)) : option message :=
  fold_left (fun o p => if Nat.eqb (fst p) l then better o (snd p) else o) r None.
Lemma same_better x y m : same x y -> same (better x m) (better y m).
Proof.
  intros [->|[Hx Hy]]; [left; reflexivity|].
  destruct (le_lt_dec 2 (rank m)) as [H|H].
  - left. destruct x as [x|], y as [y|]; cbn [low better] in *;
      repeat match goal with |- context [?a <? ?b] => destruct (Nat.ltb_spec a b) end; try lia; reflexivity.
  - right. split; [destruct x as [x|]|destruct y as [y|]]; cbn [low better] in *;
      try match goal with |- context [?a <? ?b] => destruct (Nat.ltb_spec a b) end; cbn; lia.
Qed.
Lemma worst_app l r k m : worst l (r ++ [(k, m)]) = if Nat.eqb k l then better (worst l r) m else worst l r.
Proof. unfold worst. rewrite fold_left_app. reflexivity. Qed.

Definition holds (s : server) (h : list action) : Prop :=
  jobs s = [] /\ NoDup (map fst (active s)) /\
  (forall u l, get (active s) u = Some (Msgs l) -> NoDup (map fst l)) /\
  forall u, if fst (told u h) then get (active s) u = Some Editing /\ client s u = []
            else match get (active s) u with
                 | Some Editing => False
                 | Some (Msgs l) => forall line, same (get l line) (worst line (snd (told u h)))
                 | None => client s u = [] /\ forall line, low (worst line (snd (told u h)))
                 end.
Lemma told_app u h a : told u (h ++ [a]) = tell u (told u h) a.
Proof. unfold told. now rewrite fold_left_app. Qed.
Lemma get_report_line ms l m line :
  get (match get ms l with None => put ms l m | Some old => if rank old <? rank m then put ms l m else ms end) line =
  if Nat.eqb l line then better (get ms l) m else get ms line.
Proof.
  destruct (get ms l) as [o|] eqn:E; cbn [better].
  - destruct (rank o <? rank m); rewrite ?get_put; destruct (Nat.eqb_spec l line) as [<-|]; auto.
  - rewrite get_put. reflexivity.
Qed.
Lemma diag_get l line : NoDup (map fst l) ->
  get (diagnostics l) line = match get l line with Some m => if 2 <=? rank m then Some m else None | None => None end.
Proof.
  unfold diagnostics. induction l as [|[k m] l IH]; [reflexivity|]. intros N. inversion N as [|? ? Hn Hd]; subst.
  cbn [filter get fst snd]. specialize (IH Hd).
  assert (E : negb (rank m <? PRE_UNSAT) = (2 <=? rank m)) by (unfold PRE_UNSAT; destruct (Nat.ltb_spec (rank m) 2), (Nat.leb_spec 2 (rank m)); auto; lia).
  rewrite E. destruct (2 <=? rank m) eqn:E2; cbn [get].
  - destruct (Nat.eqb_spec k line); [now rewrite E2|exact IH].
  - destruct (Nat.eqb_spec k line) as [->|]; [|exact IH]. rewrite E2. rewrite IH, (get_None _ _ _ Hn). reflexivity.
Qed.
Lemma diag_nil_low l : NoDup (map fst l) -> diagnostics l = [] -> forall line, low (get l line).
Proof.
  intros N E line. generalize (diag_get l line N). rewrite E. cbn [get]. destruct (get l line) as [m|]; cbn [low]; [|auto].
  destruct (Nat.leb_spec 2 (rank m)); [discriminate|auto].
Qed.
Lemma holds_act s h a : holds s h -> holds (act s a) (h ++ [a]).
Proof.
  intros (Hj & Hk & Hn & H). destruct s as [ac j c]. cbn [jobs active client] in *. subst j.
  assert (Pu : forall v u, publish c v [] u = if Nat.eqb v u then [] else c u).
  { intros v u. unfold publish. rewrite Nat.eqb_sym. reflexivity. }
  destruct a as [v|v|v|v|v l m| |]; cbn [act].
  1-4: unfold holds; cbn [step jobs active client]; (split; [reflexivity|split; [now apply nodup_put|split]]);
       [intros u l0; rewrite get_put; destruct (Nat.eqb v u); [intros E; inversion E; constructor|apply Hn]
       |intros u; rewrite told_app, get_put, ?Pu; cbn [tell]; specialize (H u); destruct (Nat.eqb v u); cbn [fst snd]; auto].
  - intros line. left. reflexivity.
  - intros line. left. reflexivity.
  - unfold holds. cbn [step jobs active client]. split; [reflexivity|split; [now apply report_keys|split]].
    + intros u l0. rewrite report_get. destruct (Nat.eqb v u) eqn:Ev; [|apply Hn].
      destruct (get ac v) as [[|ms]|] eqn:E; [discriminate| |]; cbv zeta; intros [= <-].
      * specialize (Hn _ _ E). destruct (get ms l) as [o|]; [destruct (rank o <? rank m)|]; auto using nodup_put.
      * repeat constructor. auto.
    + intros u. rewrite told_app, report_get. cbn [tell]. specialize (H u).
      destruct (Nat.eqb_spec v u) as [->|Nv]; [|exact H]. cbn [fst snd].
      destruct (fst (told u h)).
      * destruct H as [H Hc]. rewrite H. auto.
      * destruct (get ac u) as [[|ms]|] eqn:E; [contradiction| |]; cbv zeta.
        -- intros line. rewrite get_report_line, worst_app.
           destruct (Nat.eqb_spec l line) as [<-|]; [apply same_better|]; apply H.
        -- intros line. rewrite get_report_line, worst_app. destruct H as [_ H].
           destruct (Nat.eqb_spec l line) as [<-|]; [apply same_better|]; (right; split; [exact I|apply H]).
  - unfold finish. cbn [step jobs active client]. rewrite map_length.
    destruct (publish_loop ac ac c Hk Hk) as (P1 & P2 & P3). cbv zeta in *.
    set (s' := run _ _) in *. split; [exact P1|split; [exact P2|split]].
    + intros u l E. specialize (P3 u). destruct (get ac u) as [[|l']|] eqn:E2; destruct P3 as [P3 P4]; rewrite P4 in E; try discriminate.
      destruct (diagnostics l'); [discriminate|]. injection E as ->. now apply (Hn u).
    + intros u. rewrite told_app. cbn [tell]. specialize (H u). specialize (P3 u).
      destruct (fst (told u h)).
      * destruct H as [H Hc]. rewrite H in P3. destruct P3 as [-> ->]. auto.
      * destruct (get ac u) as [[|l]|] eqn:E; [contradiction| |]; destruct P3 as [P3 ->].
        -- destruct (diagnostics l) eqn:D; [|exact H]. split; [exact P3|]. intros line.
           destruct (H line) as [<-|[_ L]]; [|exact L]. eapply diag_nil_low; eauto.
        -- rewrite P3. exact H.
  - unfold finish. cbn [step jobs active client]. rewrite map_length.
    assert (K : keys_ok (run (Server ac (map (fun p => TRestart (fst p) (snd p)) ac) c) (repeat Next (length ac)))).
    { assert (G : forall n s, keys_ok s -> keys_ok (run s (repeat Next n))).
      { induction n as [|n IHn]; intros s Ks; [exact Ks|]. cbn [repeat]. rewrite run_cons. apply IHn. now apply step_keys. }
      apply G. exact Hk. }
    destruct (restart_loop ac ac c Hk) as (P1 & P2 & P3). cbv zeta in *.
    set (s' := run _ _) in *. split; [exact P1|split; [exact K|split]].
    + intros u l E. rewrite P3 in E. destruct (get ac u) as [[|l']|]; try discriminate. injection E as <-. constructor.
    + intros u. rewrite told_app, P3, P2. cbn [tell fst snd]. specialize (H u).
      destruct (fst (told u h)).
      * destruct H as [H Hc]. rewrite H. auto.
      * destruct (get ac u) as [[|l]|] eqn:E; [contradiction| |].
        -- intros line. left. reflexivity.
        -- destruct H as [H _]. split; [exact H|]. intros line. exact I.
Qed.
Lemma holds_perform h : holds (perform h) h.
Proof.
  induction h as [|a h IH] using rev_ind.
  - split; [reflexivity|split; [constructor|split; [discriminate|]]]. intros u. cbn. split; [reflexivity|intros; exact I].
  - unfold perform. rewrite fold_left_app. cbn [fold_left]. now apply holds_act.
Qed.
(** [worst] is the message to show *)
Lemma worst_spec r line m : (worst line r = Some m <-> exists x y, r = x ++ (line, m) :: y /\
    (forall m', In (line, m') x -> rank m' < rank m) /\ (forall m', In (line, m') y -> rank m' <= rank m)).
Proof.
  revert m. induction r as [|[k v] r IH] using rev_ind; intros m.
  - split; [discriminate|]. intros (x & y & E & _). destruct x; discriminate E.
  - rewrite worst_app. destruct (Nat.eqb_spec k line) as [->|N].
    + split.
      * intros E. destruct (worst line r) as [w|] eqn:Ew; cbn [better] in E.
        -- destruct (proj1 (IH w) eq_refl) as (x & y & -> & Hx & Hy).
           destruct (Nat.ltb_spec (rank w) (rank v)); injection E as <-.
           ++ exists (x ++ (line, w) :: y), []. split; [reflexivity|split; [|intros ? []]].
              intros m' I. apply in_app_or in I as [I|[I|I]]; [specialize (Hx _ I); lia|injection I as <-; lia|specialize (Hy _ I); lia].
           ++ exists x, (y ++ [(line, v)]). split; [now rewrite <- app_assoc|split; [exact Hx|]].
              intros m' I. apply in_app_or in I as [I|[I|[]]]; [auto|]. injection I as <-. lia.
        -- injection E as <-. exists r, []. split; [reflexivity|split; [|intros ? []]].
           intros m0 I. exfalso. revert Ew I. clear. unfold worst.
           assert (G : forall r o, (o <> None \/ exists m', In (line, m') r) ->
             fold_left (fun o p => if Nat.eqb (fst p) line then better o (snd p) else o) r o <> None).
           { clear. assert (B : forall o m, better o m <> None) by (intros [o|] m; cbn [better]; [destruct (rank o <? rank m)|]; discriminate).
             induction r as [|[k x] r IHr]; intros o H; cbn [fold_left fst snd].
             - destruct H as [H|[m' []]]. exact H.
             - apply IHr. destruct (Nat.eqb_spec k line) as [->|N]; [left; apply B|].
               destruct H as [H|[m' [E|H]]]; [now left|congruence|right; eauto]. }
           intros E I. apply (G r None); eauto.
      * intros (x & y & E & Hx & Hy). destruct y as [|y0 y _] using rev_ind.
        -- apply app_inj_tail in E as [-> [= ->]].
           destruct (worst line x) as [w|] eqn:Ew; cbn [better]; [|reflexivity].
           destruct (proj1 (IH w) eq_refl) as (x1 & y1 & -> & _).
           specialize (Hx w (in_elt _ _ _)). destruct (Nat.ltb_spec (rank w) (rank m)); [reflexivity|lia].
        -- rewrite app_comm_cons, app_assoc in E. apply app_inj_tail in E as [-> <-].
           assert (W : worst line (x ++ (line, m) :: y) = Some m).
           { apply IH. exists x, y. split; [reflexivity|split; [exact Hx|]]. intros m' I. apply Hy. apply in_or_app. auto. }
           rewrite W. cbn [better]. assert (rank v <= rank m) by (apply Hy; apply in_or_app; right; left; reflexivity).
           destruct (Nat.ltb_spec (rank m) (rank v)); [lia|reflexivity].
    + rewrite IH. split; intros (x & y & E & Hx & Hy).
      * subst r. exists x, (y ++ [(k, v)]). split; [now rewrite <- app_assoc|split; [exact Hx|]].
        intros m' I. apply in_app_or in I as [I|[I|[]]]; [auto|]. injection I as -> ->. congruence.
      * destruct y as [|y0 y _] using rev_ind.
        -- apply app_inj_tail in E as [_ E]. injection E as -> ->. congruence.
        -- rewrite app_comm_cons, app_assoc in E. apply app_inj_tail in E as [-> <-].
           exists x, y. split; [reflexivity|split; [exact Hx|]]. intros m' I. apply Hy. apply in_or_app; auto.
Qed.
Lemma nodup_diag l : NoDup (map fst l) -> NoDup (map fst (diagnostics l)).
Proof.
  unfold diagnostics. induction l as [|[k m] l IH]; cbn; [auto|]. inversion 1 as [|? ? Hn Hd]; subst.
  destruct (negb _); cbn; [|auto]. constructor; [|auto]. intros I. apply Hn.
  apply in_map_iff in I as (p & E & I). apply filter_In in I as [I _]. rewrite <- E. now apply in_map.
Qed.
Theorem shown_after_publishing h u :
  let shown := client (perform (h ++ [APublish])) u in
  NoDup (map fst shown) /\
  (fst (told u h) = true -> shown = []) /\
  (fst (told u h) = false -> forall line m, In (line, m) shown <-> to_show (snd (told u h)) line m).
Proof.
  unfold perform. rewrite fold_left_app. cbn [fold_left]. fold (perform h).
  destruct (holds_perform h) as (Hj & Hk & Hn & H). destruct (perform h) as [ac j c]. cbn [jobs active client] in *. subst j.
  cbn [act]. unfold finish. cbn [step jobs active client]. rewrite map_length.
  destruct (publish_loop ac ac c Hk Hk) as (P1 & P2 & P3). cbv zeta in *. set (s' := run _ _) in *.
  specialize (H u). specialize (P3 u).
  destruct (fst (told u h)).
  - destruct H as [H Hc]. rewrite H in P3. destruct P3 as [-> _]. rewrite Hc. split; [constructor|split; [auto|discriminate]].
  - assert (S : exists l, client s' u = l /\ NoDup (map fst l) /\
        forall line m, get l line = Some m <-> (worst line (snd (told u h)) = Some m /\ 2 <= rank m)).
    { destruct (get ac u) as [[|l]|] eqn:E; [contradiction| |]; destruct P3 as [-> _].
      - exists (diagnostics l). split; [reflexivity|]. specialize (Hn _ _ E). split; [now apply nodup_diag|].
        intros line m. rewrite (diag_get _ _ Hn). destruct (H line) as [Es|[L1 L2]].
        + rewrite Es. destruct (worst line _) as [w|]; [|split; [discriminate|intros [? _]; discriminate]].
          destruct (Nat.leb_spec 2 (rank w)); split; [intros [= ->]; auto|intros [[= ->] _]; auto|discriminate|intros [[= ->] ?]; lia].
        + destruct (get l line) as [x|]; cbn in L1.
          * destruct (Nat.leb_spec 2 (rank x)); [lia|]. split; [discriminate|].
            intros [W R]. rewrite W in L2. cbn in L2. lia.
          * split; [discriminate|]. intros [W R]. rewrite W in L2. cbn in L2. lia.
      - destruct H as [-> L]. exists []. split; [reflexivity|split; [constructor|]]. intros line m. split; [discriminate|].
        intros [W R]. specialize (L line). rewrite W in L. cbn in L. lia. }
    destruct S as (l & -> & Nl & S). split; [exact Nl|split; [discriminate|]]. intros _ line m.
    unfold to_show. split.
    + intros I. apply (get_In _ _ _ _ Nl) in I. apply S in I as [W R]. split; [exact R|]. now apply worst_spec.
    + intros [R W]. apply In_get. apply S. split; [now apply worst_spec|exact R].
Qed.

(** * The place of a message in its line *)
Lemma leading_le l : leading l <= length l.
Proof. induction l as [|[|] l IH]; cbn; lia. Qed.
Lemma leading_nth l i : i < leading l -> nth i l false = true.
Proof. revert i. induction l as [|[|] l IH]; cbn; intros i H; [lia| |lia]. destruct i; [reflexivity|]. apply IH. lia. Qed.
Lemma leading_stop l : leading l < length l -> nth (leading l) l true = false.
Proof. induction l as [|[|] l IH]; cbn; intros H; [lia| |reflexivity]. apply IH. lia. Qed.

(** The range covers the text of the line without the white space around it: outside there is only white space,
    its ends are not white space. *)
Theorem range_of_text (l : list bool) : let (c, e) := column_range 0 (Some l) in
  c <= e <= length l /\ (forall i, i < c \/ e <= i < length l -> nth i l true = true) /\
  (c < e -> nth c l true = false /\ nth (e - 1) l true = false).
Proof.
  cbn. generalize (leading_le l) (leading_le (rev l)). rewrite rev_length. intros H1 H2.
  assert (B : forall i, length l - leading (rev l) <= i < length l -> nth i l true = true).
  { intros i Hi. replace l with (rev (rev l)) by apply rev_involutive. rewrite rev_nth; rewrite rev_length; [|lia].
    rewrite (nth_indep _ true false); [|rewrite rev_length; lia]. apply leading_nth. lia. }
  assert (A : forall i, i < leading l -> nth i l true = true).
  { intros i Hi. rewrite (nth_indep _ true false) by lia. now apply leading_nth. }
  split; [lia|split].
  - intros i [Hi|Hi]; [now apply A|]. apply B. lia.
  - intros Hlt. split; [apply leading_stop; lia|].
    assert (Hm : Nat.max (leading l) (length l - leading (rev l)) = length l - leading (rev l)) by lia. rewrite Hm.
    rewrite <- (rev_involutive l) at 3. rewrite rev_nth; rewrite rev_length; [|lia].
    replace (length l - S (length l - leading (rev l) - 1)) with (leading (rev l)) by lia.
    apply leading_stop. rewrite rev_length. lia.
Qed.
