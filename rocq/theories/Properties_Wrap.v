(* C130: functions that call functions, and cached functions, give what they give outside the
   analysis. *)
From Coq Require Import ZArith List Bool Lia.
From Verif Require Import Py Wrap_Model Wrap_Spec.
Import ListNotations.

Section Values.
  Context {V : Type}.
  Variables (truth : V -> bool) (eqb : V -> V -> bool) (add : V -> V -> V).
  Let truth' (x : V) : res bool := Ok (truth x).
  Let eq' (x y : V) : res bool := Ok (eqb x y).
  Let add' (x y : V) : res V := Ok (add x y).
  Definition pure1 (f : V -> V) : fn1 := Fn1 (fun x => Ok (f x)).
  Definition pure2 (f : V -> V -> V) : fn2 := Fn2 (fun x y => Ok (f x y)).

  Lemma accumulate_from_ok (f : V -> V -> V) l : forall acc, exists out, accumulate_from (fun x y => Ok (f x y)) acc l = Ok out /\
    length out = length l /\ forall n x, nth_error l n = Some x -> nth_error out n = Some (f (nth n (acc :: out) x) x).
  Proof.
    induction l as [|x l IH]; intro acc; cbn.
    - exists []. split; [reflexivity|]. split; [reflexivity|]. intros [|n]; discriminate.
    - destruct (IH (f acc x)) as (out & E & L & N). rewrite E. exists (f acc x :: out). split; [reflexivity|]. split; [cbn; now rewrite L|].
      intros [|n] y H; cbn in *; [now injection H as ->|]. exact (N n y H).
  Qed.
  (** accumulate, with a function or without one *)
  Theorem accumulate_partial l f : exists out,
    accumulate add' l (match f with Some f => Given (pure2 f) | None => Missing end) None = Ok out /\
    accumulated (match f with Some f => f | None => add end) l out.
  Proof.
    unfold accumulate. destruct l as [|x l].
    - exists []. split; [reflexivity|]. split; [reflexivity|]. intros [|n]; discriminate.
    - set (g := match f with Some f => f | None => add end).
      destruct (accumulate_from_ok g l x) as (out & E & L & N). exists (x :: out).
      assert (Q : lambda2 (match (match f with Some f => Given (pure2 f) | None => Missing end) with Missing => Fn2 add' | Given f => f end) = Fn2 (fun a b => Ok (g a b))) by (destruct f; reflexivity).
      rewrite Q. cbn [real_accumulate]. rewrite E. split; [reflexivity|]. split; [cbn; now rewrite L|].
      intros [|n] y H; cbn in H; [injection H as ->; reflexivity|]. cbn [nth_error]. exact (N n y H).
  Qed.
  (** accumulate with an initial value: as if it came first *)
  Theorem accumulate_initial l f i : exists out,
    accumulate add' l (match f with Some f => Given (pure2 f) | None => Missing end) (Some i) = Ok out /\
    accumulated (match f with Some f => f | None => add end) (i :: l) out.
  Proof.
    unfold accumulate. set (g := match f with Some f => f | None => add end).
    destruct (accumulate_from_ok g l i) as (out & E & L & N). exists (i :: out).
    assert (Q : lambda2 (match (match f with Some f => Given (pure2 f) | None => Missing end) with Missing => Fn2 add' | Given f => f end) = Fn2 (fun a b => Ok (g a b))) by (destruct f; reflexivity).
    rewrite Q. cbn [real_accumulate]. destruct l; rewrite E; (split; [reflexivity|]); (split; [cbn; now rewrite L|]);
      (intros [|n] y H; cbn in H; [injection H as ->; reflexivity|]); cbn [nth_error]; exact (N n y H).
  Qed.
  Theorem dropwhile_partial p l : exists out, dropwhile truth' (pure1 p) l = Ok out /\ dropped (fun x => truth (p x)) l out.
  Proof.
    unfold dropwhile. induction l as [|x l (out & E & s & -> & F & H)]; cbn.
    - exists []. split; [reflexivity|]. exists []. repeat split; [constructor|discriminate].
    - destruct (truth (p x)) eqn:T.
      + exists out. split; [exact E|]. exists (x :: s). repeat split; [constructor; auto|exact H].
      + exists (x :: s ++ out). split; [reflexivity|]. exists []. repeat split; [constructor|]. intros y r [= <- _]. exact T.
  Qed.
  Theorem takewhile_partial p l : exists out, takewhile truth' (pure1 p) l = Ok out /\ taken (fun x => truth (p x)) l out.
  Proof.
    unfold takewhile. induction l as [|x l (out & E & s & -> & F & H)]; cbn.
    - exists []. split; [reflexivity|]. exists []. repeat split; [constructor|discriminate].
    - destruct (truth (p x)) eqn:T.
      + rewrite E. exists (x :: out). split; [reflexivity|]. exists s. repeat split; [constructor; auto|exact H].
      + exists []. split; [reflexivity|]. exists (x :: out ++ s). repeat split; [constructor|]. intros y r [= <- _]. exact T.
  Qed.
  Lemma real_filter_ok w p l : real_filter truth' w (pure1 p) l = Ok (filter (fun x => Bool.eqb (truth (p x)) w) l).
  Proof. induction l as [|x l IH]; [reflexivity|]. cbn in *. rewrite IH. cbn. now destruct (Bool.eqb _ _). Qed.
  Theorem filterfalse_partial p l : filterfalse truth' (pure1 p) l = Ok (filter (fun x => negb (truth (p x))) l).
  Proof.
    unfold filterfalse. change (lambda1 (pure1 p)) with (pure1 p). rewrite real_filter_ok. apply f_equal, filter_ext. intro x. now destruct (truth (p x)).
  Qed.
  (** filter, with a function or None *)
  Theorem filter_as_python p l : filter_ truth' (match p with Some p => pure1 p | None => None1 end) l =
    Ok (filter (fun x => truth (match p with Some p => p x | None => x end)) l).
  Proof.
    destruct p as [p|]; unfold filter_; cbn [pure1].
    - transitivity (real_filter truth' true (pure1 p) l); [reflexivity|]. rewrite real_filter_ok. apply f_equal, filter_ext. intro x. now destruct (truth (p x)).
    - transitivity (real_filter truth' true (pure1 (fun x => x)) l); [reflexivity|]. rewrite real_filter_ok. apply f_equal, filter_ext. intro x. now destruct (truth x).
  Qed.
  Theorem map_as_python f l : map_ (pure1 f) l = Ok (map f l).
  Proof. unfold map_. induction l as [|x l IH]; [reflexivity|]. cbn in *. now rewrite IH. Qed.
  Theorem reduce_as_python f l i : reduce (pure2 f) l (Some i) = Ok (fold_left f l i).
  Proof. unfold reduce, real_reduce. revert i. induction l as [|x l IH]; intro i; [reflexivity|]. cbn in *. apply IH. Qed.
  Lemma groups_from_ok key l : forall k x r, k = key x -> Forall (fun y => eqb k (key y) = true) r ->
    exists gs, groups_from eq' (fun x => Ok (key x)) k (x :: r) l = Ok gs /\ grouped eqb key ((x :: r) ++ l) gs.
  Proof.
    induction l as [|y l IH]; intros k x r K F.
    - exists [(k, x :: r)]. split; [reflexivity|]. exists x, r, []. repeat split; auto. discriminate.
    - cbn [groups_from bind eq']. destruct (eqb k (key y)) eqn:E.
      + cbn [app]. destruct (IH k x (r ++ [y]) K) as (gs & G & H); [apply Forall_app; auto|]. exists gs. split; [exact G|].
        cbn [app] in *. now rewrite <- app_assoc in H.
      + destruct (IH (key y) y [] eq_refl (Forall_nil _)) as (gs & G & H). rewrite G. exists ((k, x :: r) :: gs). split; [reflexivity|].
        exists x, r, (y :: l). split; [reflexivity|]. split; [exact K|]. split; [reflexivity|]. split; [exact F|]. split; [|exact H].
        intros z r' [= <- _]. exact E.
  Qed.
  (** groupby, with a key or without one *)
  Theorem groupby_partial key l : exists gs,
    groupby eq' l (match key with Some k => Given (pure1 k) | None => Missing end) = Ok gs /\
    grouped eqb (match key with Some k => k | None => fun x => x end) l gs.
  Proof.
    unfold groupby. set (k := match key with Some k => k | None => fun x => x end).
    replace (match (match key with Some k => Given (pure1 k) | None => Missing end) with Missing => real_groupby eq' l None1 | Given f => real_groupby eq' l (lambda1 f) end)
      with (groups eq' (fun x => Ok (k x)) l) by (destruct key; reflexivity).
    destruct l as [|x l]; [exists []; split; reflexivity|]. cbn [groups bind].
    destruct (groups_from_ok k l (k x) x [] eq_refl (Forall_nil _)) as (gs & G & H). rewrite G. exists gs. split; [reflexivity|exact H].
  Qed.

  (** A cached function gives the same results without its cache if they depend on the argument
      alone, and not on more of it than == looks at, and all arguments have a hash. *)
  Theorem cache_partial {S : Type} (hashable : V -> bool) (f : S -> V -> res V * S) (g : V -> res V) s l :
    (forall s x, fst (f s x) = g x) -> (forall x y, eqb x y = true -> g x = g y) -> Forall (fun x => hashable x = true) l ->
    calls f s l = cached eqb hashable f s [] l.
  Proof.
    intros P R H.
    assert (X : forall cache s s', (forall x v, In (x, v) cache -> g x = Ok v) -> calls f s l = cached eqb hashable f s' cache l).
    { induction H as [|x l HX H IH]; intros cache s1 s2 C; [reflexivity|]. cbn [calls cached]. rewrite HX.
      destruct (f s1 x) as [r1 s1'] eqn:F1. assert (r1 = g x) by (rewrite <- (P s1 x), F1; reflexivity). subst r1.
      destruct (find (fun e => eqb (fst e) x) cache) as [[y v]|] eqn:FD.
      - apply find_some in FD. destruct FD as [I E]. cbn in E. rewrite <- (R _ _ E), (C _ _ I). f_equal. now apply IH.
      - destruct (f s2 x) as [r2 s2'] eqn:F2. assert (r2 = g x) by (rewrite <- (P s2 x), F2; reflexivity). subst r2. f_equal. apply IH.
        destruct (g x) as [v|e] eqn:G; [|exact C]. intros y w [[= <- <-]|I]; [exact G|now apply C]. }
    now apply X.
  Qed.
End Values.
Print Assumptions accumulate_partial.
Print Assumptions accumulate_initial.
Print Assumptions dropwhile_partial.
Print Assumptions takewhile_partial.
Print Assumptions filterfalse_partial.
Print Assumptions filter_as_python.
Print Assumptions map_as_python.
Print Assumptions reduce_as_python.
Print Assumptions groupby_partial.
Print Assumptions cache_partial.

Definition zt (x : Z) : res bool := Ok (negb (Z.eqb x 0)).
Definition ze (x y : Z) : res bool := Ok (Z.eqb x y).
Definition za (x y : Z) : res Z := Ok (x + y)%Z.
Example functions_example :
  accumulate za [1; 2; 3]%Z Missing None = Ok [1; 3; 6]%Z /\ accumulate za [1; 2; 3]%Z Missing (Some 10%Z) = Ok [10; 11; 13; 16]%Z /\
  groupby ze [1; 3; 2; 5]%Z (Given (pure1 (fun x => x mod 2)%Z)) = Ok [(1, [1; 3]); (0, [2]); (1, [5])]%Z /\
  dropwhile zt (pure1 (fun x => x - 2)%Z) [1; 2; 3]%Z = Ok [2; 3]%Z.
Proof. repeat split. Qed.
Example cache_example : calls (fun (s : nat) x => (Ok (x * x)%Z, S s)) 0%nat [2; 3; 2]%Z = [Ok 4; Ok 9; Ok 4]%Z.
Proof. reflexivity. Qed.

(** None for a function is an error, where Python takes addition or the elements themselves *)
Theorem none_refuted :
  accumulate za [1; 2]%Z (Given None2) None = Err TypeError /\ real_accumulate za [1; 2]%Z None2 None = Ok [1; 3]%Z /\
  filterfalse zt None1 [0; 1]%Z = Err TypeError /\ real_filter zt false None1 [0; 1]%Z = Ok [0]%Z /\
  groupby ze [1; 1]%Z (Given None1) = Err TypeError /\ real_groupby ze [1; 1]%Z None1 = Ok [(1, [1; 1])]%Z.
Proof. repeat split. Qed.
Print Assumptions none_refuted.
(** A cached function that counts its calls gives other results; so does one that tells arguments
    apart that are equal; an argument without a hash is accepted *)
Theorem cache_refuted :
  (exists (f : Z -> Z -> res Z * Z), calls f 0%Z [7; 7]%Z <> cached Z.eqb (fun _ => true) f 0%Z [] [7; 7]%Z) /\
  (exists (f : unit -> Z -> res Z * unit) eqb, (forall x, eqb x x = true) /\ (forall s x, f s x = (Ok x, tt)) /\
     calls f tt [1; -1]%Z <> cached eqb (fun _ => true) f tt [] [1; -1]%Z) /\
  (exists (f : unit -> Z -> res Z * unit), calls f tt [1]%Z = [Ok 1]%Z /\ cached Z.eqb (fun _ => false) f tt [] [1]%Z = [Err TypeError]).
Proof.
  split; [|split].
  - exists (fun s x => (Ok s, s + 1)%Z). discriminate.
  - exists (fun s x => (Ok x, tt)), (fun x y => Z.eqb (Z.abs x) (Z.abs y)). split; [intro x; apply Z.eqb_refl|]. split; [reflexivity|discriminate].
  - now exists (fun s x => (Ok x, tt)).
Qed.
Print Assumptions cache_refuted.
