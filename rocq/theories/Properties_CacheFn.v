(** C130, for caches of limited size that may be cleared and asked about. *)
From Coq Require Import ZArith List Bool Lia.
From Verif Require Import Py CacheFn_Model CacheFn_Spec.
Import ListNotations.
Open Scope Z_scope.

(** Calls with hashable arguments, and clearing *)
Definition usual (o : op) : Prop := match o with Call (Hashable _) | Clear => True | _ => False end.

Section Function.
Variable state : Type.
Variable f : body state.
Variable maxsize : option nat.
Variable value : Z -> res Z.

(** Everything kept is what the function gives *)
Definition right (l : list (Z * Z)) : Prop := forall k v, In (k, v) l -> value k = Ok v.
Lemma find_right : forall l k v, right l -> find k l = Some v -> value k = Ok v.
Proof.
  induction l as [|[x w] l IH]; intros k v R E; [discriminate|]. cbn [find] in E. destruct (Z.eqb_spec x k) as [->|N].
  - injection E as <-. apply R. left. reflexivity.
  - apply IH; [|exact E]. intros k' v' I. apply R. right. exact I.
Qed.
Lemma without_right : forall l k, right l -> right (without k l).
Proof. intros l k R k' v' I. apply filter_In in I as [I _]. exact (R k' v' I). Qed.
Lemma cons_right : forall l k v, value k = Ok v -> right l -> right ((k, v) :: l).
Proof. intros l k v E R k' v' [X|X]; [injection X as <- <-; exact E|exact (R k' v' X)]. Qed.
Lemma firstn_in : forall {A} n (l : list A) x, In x (firstn n l) -> In x l.
Proof. intros A n. induction n as [|n IH]; intros [|y l] x I; cbn in I; try tauto. destruct I as [I|I]; [left; exact I|right; apply IH; exact I]. Qed.
Lemma trim_right : forall l, right l -> right (trim maxsize l).
Proof. intros l R. unfold trim. destruct maxsize as [n|]; [|exact R]. intros k v I. apply R. apply (firstn_in n). exact I. Qed.
Lemma call_right : forall k c s, (forall s, fst (f (Hashable k) s) = value k) -> right (kept c) ->
  let '(r, c', s') := p_call state f maxsize (Hashable k) c s in
  r = value k /\ right (kept c') /\ (s' = s \/ s' = snd (f (Hashable k) s)).
Proof.
  intros k c s H R. cbn [p_call]. destruct (find k (kept c)) as [v|] eqn:E.
  - pose proof (find_right _ _ _ R E) as V. split; [symmetry; exact V|]. split; [|left; reflexivity].
    cbn [kept]. apply cons_right; [exact V|apply without_right; exact R].
  - specialize (H s). destruct (f (Hashable k) s) as [r s'] eqn:X. cbn [fst] in H. subst r. split; [reflexivity|]. split; [|right; reflexivity].
    cbn [kept]. destruct (value k) as [v|e] eqn:V; [|exact R]. apply trim_right, cons_right; assumption.
Qed.

(** If what the function gives does not depend on the state, every call gives what it gives
    with the cache, whatever its size, *)
Theorem C130_limited_partial : (forall k s, fst (f (Hashable k) s) = value k) ->
  forall ops s, Forall usual ops ->
  fst (run state f ops s) = fst (p_run state f maxsize ops empty s).
Proof.
  intros H ops s U. assert (R : right (kept empty)) by (intros k v []).
  enough (G : forall c s s', right (kept c) -> fst (run state f ops s) = fst (p_run state f maxsize ops c s')) by (apply G; exact R).
  clear R s. induction U as [|o ops Uo U IH]; intros c s s' R; [reflexivity|].
  cbn [run p_run]. destruct o as [[k|k]| |]; try contradiction; cbn [step p_step].
  - unfold call. specialize (call_right k c s' (H k) R). destruct (p_call state f maxsize (Hashable k) c s') as [[r c'] s2].
    intros (E & R' & _). pose proof (H k s) as Hs. destruct (f (Hashable k) s) as [r1 s1]. cbn [fst] in Hs. subst r1 r.
    specialize (IH c' s1 s2 R'). destruct (run state f ops s1), (p_run state f maxsize ops c' s2). cbn [fst] in *. rewrite IH. reflexivity.
  - assert (R' : right (kept empty)) by (intros k v []). specialize (IH empty s s' R').
    destruct (run state f ops s), (p_run state f maxsize ops empty s'). cbn [fst] in *. rewrite IH. reflexivity.
Qed.
(** and if it does not change the state either, the state is the same too. *)
Theorem C130_limited_pure_partial : (forall k s, f (Hashable k) s = (value k, s)) ->
  forall ops s, Forall usual ops -> run state f ops s = p_run state f maxsize ops empty s.
Proof.
  intros H ops s U. assert (H1 : forall k s, fst (f (Hashable k) s) = value k) by (intros; rewrite H; reflexivity).
  pose proof (C130_limited_partial H1 ops s U) as E.
  assert (A : snd (run state f ops s) = s).
  { clear E. revert s. induction U as [|o ops Uo U IH]; intro s; [reflexivity|]. cbn [run]. destruct o as [[k|k]| |]; try contradiction; cbn [step];
      [unfold call; rewrite H|]; specialize (IH s); destruct (run state f ops s); exact IH. }
  assert (B : forall c, right (kept c) -> snd (p_run state f maxsize ops c s) = s).
  { clear E A. revert s. induction U as [|o ops Uo U IH]; intros s c R; [reflexivity|]. cbn [p_run]. destruct o as [[k|k]| |]; try contradiction; cbn [p_step].
    - specialize (call_right k c s (H1 k) R). destruct (p_call state f maxsize (Hashable k) c s) as [[r c'] s2]. intros (_ & R' & S2).
      rewrite H in S2. assert (s2 = s) as -> by (destruct S2; assumption). specialize (IH s c' R'). destruct (p_run state f maxsize ops c' s). exact IH.
    - assert (R' : right (kept empty)) by (intros k v []). specialize (IH s empty R'). destruct (p_run state f maxsize ops empty s). exact IH. }
  assert (R : right (kept empty)) by (intros k v []). specialize (B empty R).
  destruct (run state f ops s) as [x1 s1], (p_run state f maxsize ops empty s) as [x2 s2]. cbn [fst snd] in *. congruence.
Qed.
End Function.
Print Assumptions C130_limited_partial.
Print Assumptions C130_limited_pure_partial.
(** a function that counts its calls but gives 10 // k, with a cache of one *)
Definition tenth (k : Z) : res Z := if k =? 0 then Err ZeroDivisionError else Ok (10 / k).
Definition counting : body Z := fun a s => match a with Hashable k | Unhashable k => (tenth k, s + 1) end.
Definition sample_ops := [Call (Hashable 2); Call (Hashable 0); Call (Hashable 2); Clear; Call (Hashable 5)].
Example C130_limited_example : (forall k s, fst (counting (Hashable k) s) = tenth k) /\ Forall usual sample_ops /\
  fst (run Z counting sample_ops 0) = [SRes (Ok 5); SRes (Err ZeroDivisionError); SRes (Ok 5); SNone; SRes (Ok 2)] /\
  snd (run Z counting sample_ops 0) = 4 /\ snd (p_run Z counting (Some 1%nat) sample_ops empty 0) = 3.
Proof.
  split; [reflexivity|]. split; [|split; [reflexivity|split; reflexivity]].
  unfold sample_ops. repeat (apply Forall_cons; [exact I|]). apply Forall_nil.
Qed.

(** Refuted: cache_info counts no calls.  (New objects and arguments that cannot be hashed:
    cache_refuted in Properties_Wrap.) *)
Theorem C130_info_refuted : exists ops,
  fst (run Z counting ops 0) = [SRes (Ok 5); SRes (Ok 5); SInfo 0 0 0] /\
  fst (p_run Z counting None ops empty 0) = [SRes (Ok 5); SRes (Ok 5); SInfo 1 1 1].
Proof. exists [Call (Hashable 2); Call (Hashable 2); Info]. split; reflexivity. Qed.
Print Assumptions C130_info_refuted.

(** With maxsize=0 nothing is kept: any function at all, with any arguments, behaves the same and
    leaves the same state, as long as cache_info is not looked at. *)
Theorem C130_no_cache_partial : forall (state : Type) (f : body state) ops s, ~ In Info ops ->
  run state f ops s = p_run state f (Some O) ops empty s.
Proof.
  intros state f ops s N. enough (G : forall c s, kept c = [] -> run state f ops s = p_run state f (Some O) ops c s) by (apply G; reflexivity).
  clear s. induction ops as [|o ops IH]; intros c s K; [reflexivity|].
  assert (IH' := IH (fun X => N (or_intror X))). cbn [run p_run].
  destruct o as [[k|k]| |]; cbn [step p_step]; unfold call, p_call.
  - rewrite K. cbn [find]. destruct (f (Hashable k) s) as [r s1]. rewrite (IH' (Cache (match r with Ok v => trim (Some O) ((k, v) :: []) | Err _ => [] end) (hits c) (misses c + 1)) s1); [reflexivity|]. destruct r; reflexivity.
  - destruct (f (Unhashable k) s) as [r s1]. rewrite (IH' (Cache (kept c) (hits c) (misses c + 1)) s1 K). reflexivity.
  - destruct N. left. reflexivity.
  - rewrite (IH' empty s eq_refl). reflexivity.
Qed.
Print Assumptions C130_no_cache_partial.
Example C130_no_cache_example : ~ In Info [Call (Unhashable 2); Clear; Call (Hashable 0)] /\
  run Z counting [Call (Unhashable 2); Clear; Call (Hashable 0)] 0 = ([SRes (Ok 5); SNone; SRes (Err ZeroDivisionError)], 2).
Proof. split; [intros [X|[X|[X|[]]]]; discriminate|reflexivity]. Qed.
