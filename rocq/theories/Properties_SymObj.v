(** C135: arguments of unknown type behave as the values they stand for.  Model: [SymObj_Model]; spec: [SymObj_Spec]. *)
From Coq Require Import ZArith List Bool.
From Verif Require Import SymObj_Model SymObj_Spec.
Import ListNotations.
Open Scope Z_scope.

Section Path.
Variable initial : nat -> value.
(** the value a variable stands for *)
Definition stands_for (s : state) (r : ref) : value :=
  match r with Direct v => v | Proxy p => match inner s p with Some v => v | None => initial p end end.
Definition agrees (s : state) (t : pstate) : Prop := heap s = objects t /\ forall x, stands_for s (env s x) = vars t x.

Lemma set_nth_write h n l : set_nth h n l = firstn n h ++ match skipn n h with [] => [] | _ :: r => l :: r end.
Proof. revert n. induction h as [|x h IH]; intros [|n]; cbn; try reflexivity. now rewrite IH. Qed.
Lemma wrapped_ok s p : fst (wrapped initial s p) = stands_for s (Proxy p) /\ env (snd (wrapped initial s p)) = env s /\
  heap (snd (wrapped initial s p)) = heap s /\ (forall r, stands_for (snd (wrapped initial s p)) r = stands_for s r) /\
  inner (snd (wrapped initial s p)) p = Some (fst (wrapped initial s p)).
Proof.
  unfold wrapped, stands_for. destruct (inner s p) as [v|] eqn:E; cbn; [now repeat split|].
  repeat split; [|unfold upd; now rewrite Nat.eqb_refl]. intros [v|q]; [reflexivity|]. unfold upd. destruct (Nat.eqb_spec q p) as [->|]; [now rewrite E|reflexivity].
Qed.
Lemma use_ok s x : fst (use initial s x) = stands_for s (env s x) /\ env (snd (use initial s x)) = env s /\
  heap (snd (use initial s x)) = heap s /\ (forall r, stands_for (snd (use initial s x)) r = stands_for s r).
Proof.
  unfold use. destruct (env s x) as [v|p]; [now repeat split|]. destruct (wrapped_ok s p) as (A & B & C & D & _). now repeat split.
Qed.
Lemma agrees_env s s' t : agrees s t -> env s' = env s -> heap s' = heap s -> (forall r, stands_for s' r = stands_for s r) -> agrees s' t.
Proof. intros [H V] E H' S. split; [congruence|]. intros x. now rewrite E, S. Qed.
Lemma agrees_bind s t y r v : agrees s t -> stands_for s r = v -> agrees (bind_var s y r) (assign t y v).
Proof.
  intros [H V] R. split; [exact H|]. intros x. cbn. unfold upd. destruct (Nat.eqb x y); [exact R|]. exact (V x).
Qed.
Lemma agrees_heap s t h1 h2 : agrees s t -> h1 = h2 -> agrees (State (env s) (inner s) h1) (PState (vars t) h2).
Proof. intros [H V] ->. split; [reflexivity|]. exact V. Qed.

Lemma step_agrees s t c : agrees s t -> fine initial s c ->
  agrees (fst (step initial s c)) (fst (pstep t c)) /\ snd (step initial s c) = snd (pstep t c).
Proof.
  intros A F. destruct A as [H V]. assert (A : agrees s t) by now split.
  destruct c as [y x|y x|x k|y x k|x k|x]; cbn [step pstep] in *.
  - split; [|reflexivity]. now apply agrees_bind.
  - assert (C : forall v, stands_for s (env s x) = v ->
      agrees (match v with Num z => bind_var s y (Direct (Num z))
              | Lst l => bind_var (State (env s) (inner s) (heap s ++ [content (heap s) l])) y (Direct (Lst (length (heap s)))) end)
             (fst (match vars t x with Num z => (assign t y (Num z), @nil seen) | Lst l => let (v, s0) := new_list t (items t l) in (assign s0 y v, []) end)) /\
      [] = snd (match vars t x with Num z => (assign t y (Num z), @nil seen) | Lst l => let (v, s0) := new_list t (items t l) in (assign s0 y v, []) end)).
    { intros v E. rewrite V in E. rewrite E. destruct v as [z|l]; cbn [fst snd new_list]; (split; [|reflexivity]).
      - now apply agrees_bind.
      - apply agrees_bind; [|cbn; now rewrite H]. apply agrees_heap; [exact A|]. unfold content, items. now rewrite H. }
    cbn [fine] in F. destruct (env s x) as [v|p] eqn:E; [exact (C v eq_refl)|]. cbn [stands_for] in C.
    destruct (inner s p) as [v|]; [exact (C v eq_refl)|congruence].
  - rewrite <- V. destruct (env s x) as [[z|l]|p] eqn:E; cbn [stands_for].
    + split; [|reflexivity]. now apply agrees_bind.
    + split; [|reflexivity]. apply agrees_heap; [exact A|]. unfold content, items. rewrite set_nth_write. now rewrite H.
    + destruct (wrapped_ok s p) as (W1 & W2 & W3 & W4 & W5). destruct (wrapped initial s p) as [v s1]. cbn [fst snd] in *.
      cbn [stands_for] in W1. rewrite <- W1. destruct v as [z|l]; cbn [fst snd].
      * split; [|reflexivity]. cbn [fine] in F. rewrite E in F. destruct F as [[l F]|F]; [congruence|].
        split; [cbn; congruence|]. intros u. specialize (V u). specialize (F u). specialize (W4 (env s u)). cbn.
        unfold upd. destruct (Nat.eqb_spec u x) as [->|N]; [reflexivity|].
        rewrite W2. rewrite <- V, <- W4. specialize (F N). unfold stands_for. cbn [inner bind_var].
        destruct (env s u) as [w|q]; [reflexivity|]. destruct (Nat.eqb_spec q p) as [->|]; [congruence|reflexivity].
      * split; [|reflexivity]. assert (A1 : agrees s1 t) by (eapply agrees_env; eauto).
        apply agrees_heap; [exact A1|]. unfold content, items. rewrite set_nth_write, W3. now rewrite H.
  - destruct (use_ok s x) as (U1 & U2 & U3 & U4). destruct (use initial s x) as [v s1]. cbn [fst snd] in *.
    rewrite <- V, <- U1. assert (A1 : agrees s1 t) by (eapply agrees_env; eauto). assert (H1 : heap s1 = objects t) by congruence.
    destruct v as [z|l]; cbn [plus new_list fst snd]; (split; [|reflexivity]).
    + now apply agrees_bind.
    + apply agrees_bind; [|cbn; now rewrite H1]. apply agrees_heap; [exact A1|]. unfold content, items. now rewrite H1.
  - destruct (use_ok s x) as (U1 & U2 & U3 & U4). destruct (use initial s x) as [v s1]. cbn [fst snd] in *.
    rewrite <- V, <- U1. assert (A1 : agrees s1 t) by (eapply agrees_env; eauto). assert (H1 : heap s1 = objects t) by congruence.
    destruct v as [z|l]; cbn [fst snd]; (split; [|reflexivity]); [exact A1|].
    apply agrees_heap; [exact A1|]. unfold content, items. rewrite set_nth_write. now rewrite H1.
  - destruct (use_ok s x) as (U1 & U2 & U3 & U4). destruct (use initial s x) as [v s1]. cbn [fst snd] in *.
    rewrite <- V, <- U1. assert (A1 : agrees s1 t) by (eapply agrees_env; eauto). assert (H1 : heap s1 = objects t) by congruence.
    split; [exact A1|]. unfold content, items. now rewrite H1.
Qed.
End Path.

(** C135, partial.  Programs that use arguments of unknown type see what Python shows them, whatever values the
    path gives the arguments and whenever these are made.  Missing: copies of arguments whose value was not yet
    needed, and x += k on a number when another variable has the argument too; both refuted below. *)
Theorem C135_unknown_types_partial (initial : nat -> value) (s : state) (objects : list (list Z)) (p : list cmd) :
  heap s = objects -> all_fine initial s p ->
  run initial s p = prun (PState (fun x => stands_for initial s (env s x)) objects) p.
Proof.
  intros H F. assert (A : agrees initial s (PState (fun x => stands_for initial s (env s x)) objects)) by (split; [exact H|reflexivity]).
  revert A. generalize (PState (fun x => stands_for initial s (env s x)) objects). clear H objects. revert s F.
  induction p as [|c p IH]; intros s F t A; [reflexivity|]. cbn [all_fine run prun] in *. destruct F as [F1 F2].
  destruct (step_agrees initial s t c A F1) as [A' O]. destruct (step initial s c) as [s' o]. destruct (pstep t c) as [t' o']. cbn [fst snd] in *.
  rewrite O. f_equal. now apply IH.
Qed.
Print Assumptions C135_unknown_types_partial.
(** arguments x0 and x1 with proxies of their own; x2 is where the record of x0 is kept *)
Definition start (h : list (list Z)) : state := State Proxy (fun _ => None) h.
Example C135_unknown_types_partial_witness :
  let initial p := match p with 0%nat => Num 5 | _ => Lst 0 end in
  let p := [Look 0; DeepCopy 2 0; Inplace 0 1; Look 0; Look 2; Alias 3 1; Inplace 1 9; Look 3; DeepCopy 4 1; Append 3 8; Look 1; Look 4; Append 0 1] in
  all_fine initial (start [[7]]) p /\
  run initial (start [[7]]) p = [SawNum 5; SawNum 6; SawNum 5; SawList [7; 9]; SawList [7; 9; 8]; SawList [7; 9]; SawError].
Proof.
  split; [|reflexivity]. cbn. repeat split; try discriminate.
  - right. intros [|[|[|y]]]; cbn; congruence.
  - left. now exists 0%nat.
Qed.

(** C135, violated.  y = x; x += 1: y changes too. *)
Theorem C135_other_names_change_refuted : exists (initial : nat -> value) (p : list cmd),
  run initial (start []) p = [SawNum 6; SawNum 6] /\ prun (PState initial []) p = [SawNum 6; SawNum 5].
Proof. exists (fun _ => Num 5), [Alias 1 0; Inplace 0 1; Look 0; Look 1]. split; reflexivity. Qed.
Print Assumptions C135_other_names_change_refuted.
(** C135, violated.  A copy made before the value is needed, as CrossHair makes of all arguments before the call to
    report them and for "__old__", is no copy: what the function does to its argument changes it. *)
Theorem C135_recorded_arguments_change_refuted : exists (i1 i2 : nat -> value) (p1 p2 : list cmd),
  run i1 (start [[7]]) p1 = [SawList [7; 8]] /\ prun (PState i1 [[7]]) p1 = [SawList [7]] /\
  run i2 (start []) p2 = [SawNum 6] /\ prun (PState i2 []) p2 = [SawNum 5].
Proof.
  exists (fun _ => Lst 0), (fun _ => Num 5), [DeepCopy 1 0; Append 0 8; Look 1], [DeepCopy 1 0; Inplace 0 1; Look 1]. repeat split.
Qed.
Print Assumptions C135_recorded_arguments_change_refuted.
