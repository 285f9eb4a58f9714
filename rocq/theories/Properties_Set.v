(** C18, C19: lazy sets and the mutable set over them behave as Python sets. *)
From Coq Require Import ZArith List Bool Lia.
From Verif Require Import Py Set_Model Set_Spec Set_Proofs.
Import ListNotations.
Open Scope Z_scope.

Definition decides {K} (eqb : K -> K -> bool) : Prop := forall x y, eqb x y = true <-> x = y.

(** *** C18 *)
(** Membership in any combination of sets is the set algebra's; iteration lists the
    members, each once; len counts them; bool tells whether there is one. *)
Theorem C18_combination {A} (eqb : A -> A -> bool) eq_dec (s : fset A) fuel h : decides eqb -> ok s ->
  (forall x, contains eqb fuel h s x = Ok (denotes eq_dec s x))
  /\ exists l, lists (denotes eq_dec s) l /\ iter eqb fuel h s = Ok l
     /\ len eqb fuel h s = Ok (Z.of_nat (length l))
     /\ truth eqb fuel h s = Ok (match l with [] => false | _ => true end).
Proof.
  intros E H. assert (M : forall x, mem eqb s x = denotes eq_dec s x) by (intro; now apply mem_denotes).
  split; [intro x; now rewrite contains_ok, M|].
  destruct (iter_ok eqb E fuel h s H) as (l & I & N & L). exists l. unfold len, truth. rewrite I. cbn [bind].
  repeat split; auto; apply L || (rewrite <- M; apply L); now rewrite M.
Qed.
Definition ex_set : fset Z := FComb LXor (FComb LSub (FLin [1; 2; 3]) (FSing 2)) (FComb LOr (FLin [3; 4]) FEmpty).
Example C18_combination_witness : ok ex_set /\ iter Z.eqb 0 [] ex_set = Ok [1; 4].
Proof. split; [|reflexivity]. cbn. repeat split; repeat constructor; cbn; intuition lia. Qed.
Print Assumptions C18_combination.

(** Building a set from an iterable keeps one of each element. *)
Theorem C18_unique {A} (eqb : A -> A -> bool) eq_dec (l : list A) : decides eqb ->
  lists (of_list eq_dec l) (uniq eqb l).
Proof.
  intro E. destruct (uniq_ok eqb E l) as [N H]. split; auto. intro x. rewrite H. unfold of_list.
  destruct (in_dec eq_dec x l); intuition discriminate.
Qed.
Example C18_unique_witness : uniq Z.eqb [3; 1; 3; 2; 1] = [3; 1; 2].
Proof. reflexivity. Qed.
Print Assumptions C18_unique.

(** Comparisons of any two such sets. *)
Theorem C18_comparisons {A} (eqb : A -> A -> bool) eq_dec (s t : fset A) fuel h : decides eqb -> ok s -> ok t ->
  let p := denotes eq_dec s in let q := denotes eq_dec t in
  (exists b, abc_eq eqb (S fuel) h s t = Ok b /\ says b (forall x, p x = q x))
  /\ (exists b, abc_le eqb (S fuel) h s t = Ok b /\ says b (subset p q))
  /\ (exists b, abc_lt eqb (S fuel) h s t = Ok b /\ says b (subset p q /\ ~ subset q p))
  /\ (exists b, abc_ge eqb (S fuel) h s t = Ok b /\ says b (subset q p))
  /\ (exists b, abc_gt eqb (S fuel) h s t = Ok b /\ says b (subset q p /\ ~ subset p q)).
Proof.
  intros E Hs Ht p q.
  assert (M : forall s x, mem eqb s x = denotes eq_dec s x) by (intros; now apply mem_denotes).
  pose proof (through_self h s Hs) as TS. pose proof (through_self h t Ht) as TT.
  first [pose proof (abc_eq_ok eqb eq_dec E fuel h s s t t TS TT) as X1|pose proof (abc_eq_ok eqb E fuel h s s t t TS TT) as X1]. pose proof (abc_le_ok eqb E fuel h s s t t TS TT) as X2.
  first [pose proof (abc_lt_ok eqb eq_dec E fuel h s s t t TS TT) as X3|pose proof (abc_lt_ok eqb E fuel h s s t t TS TT) as X3]. pose proof (abc_ge_ok eqb E fuel h s s t t TS TT) as X4.
  first [pose proof (abc_gt_ok eqb eq_dec E fuel h s s t t TS TT) as X5|pose proof (abc_gt_ok eqb E fuel h s s t t TS TT) as X5].
  unfold subset, says in *. unfold p, q. setoid_rewrite M in X1. setoid_rewrite M in X2. setoid_rewrite M in X3.
  setoid_rewrite M in X4. setoid_rewrite M in X5. auto.
Qed.
Example C18_comparisons_witness : abc_lt Z.eqb 1 [] (FLin [2; 1]) (FComb LOr (FLin [1; 3]) (FSing 2)) = Ok true
  /\ abc_eq Z.eqb 1 [] (FLin [2; 1]) (FComb LOr (FLin [1]) (FSing 2)) = Ok true.
Proof. now vm_compute. Qed.
Print Assumptions C18_comparisons.

(** *** C19 *)
(** Full statement: every history of operations on any number of mutable sets answers
    as Python's sets do, and the sets end with the same members.
    Proved: for histories without [s - t] (t itself a mutable set, as an operator) and
    without union()/difference()/intersection() called with no arguments.  Missing:
    those two, for which it is false (see below). *)
Theorem C19_history_partial {A} (eqb : A -> A -> bool) eq_dec fuel ops :
  decides eqb -> sized 0 ops -> Forall no_alias ops ->
  let '(rs, h) := run eqb (S fuel) [] ops in
  exists w, spec_run eq_dec [] ops rs w
    /\ Forall2 (fun s p => forall x, contains eqb (S fuel) h s x = Ok (p x)) h w.
Proof.
  intros E SZ NA. pose proof (run_ok eqb eq_dec E fuel ops [] (Forall_nil _) SZ NA) as H.
  destruct (run eqb (S fuel) [] ops) as [rs h]. destruct H as [H G]. exists (abs eqb h). split; auto.
  unfold abs. assert (X : forall h', good h' -> Forall2 (fun s p => forall x, contains eqb (S fuel) h s x = Ok (p x)) h' (map (mem eqb) h')).
  { induction h' as [|s h' IH]; intro G'; inversion G'; subst; cbn [map]; constructor; auto. intro x. exact (contains_ok eqb (S fuel) h s x H2). }
  now apply X.
Qed.
Definition ex_ops : list (sop Z) :=
  [SNew [1; 2; 2; 3]; SNew [3; 4]; SOp LOr 0 (ASet 1); SAdd 1 9; SIter 2; SRemove 0 1; SIop LXor 0 (ASet 2); SIter 0;
   SUpd LAnd 2 (AIter [4; 4; 1]); SIter 2; SMeth LSub 2 [AIter [1]; AFrozen [7]]; SCmp CEq 3 (AFrozen [4]); SPop 3; SPop 3; SDisj 1 (ASet 2);
   SUpdate 2 [AIter [5; 5]; ASet 2]; SLen 2; SOp LOr 0 (AIter [1])].
Example C19_history_partial_witness : sized 0 ex_ops /\ Forall no_alias ex_ops
  /\ fst (run Z.eqb 1 [] ex_ops) = [SRObj 0; SRObj 1; SRObj 2; SNone; SRItems [1; 2; 3; 4]; SNone; SNone; SRItems [1; 4]; SNone; SRItems [4; 1]; SRObj 3; SRBool true; SRItem 4; SRErr KeyError; SRBool false; SNone; SRLen 3; SRErr TypeError].
Proof.
  split; [|split; [repeat constructor|reflexivity]].
  cbn. repeat split; repeat constructor; cbn; intuition lia.
Qed.
Print Assumptions C19_history_partial.

(** [s - t] is the difference as long as it is looked at before t changes. *)
Theorem C19_difference_partial {A} (eqb : A -> A -> bool) eq_dec fuel ops n m x :
  decides eqb -> sized 0 (ops ++ [SOp LSub n (ASet m)]) -> Forall no_alias ops ->
  let '(rs, h) := run eqb (S fuel) [] ops in
  exists w r h' b w', spec_run eq_dec [] ops rs w /\ step eqb (S fuel) h (SOp LSub n (ASet m)) = (r, h')
    /\ spec_step eq_dec w (SOp LSub n (ASet m)) r w'
    /\ step eqb (S fuel) h' (SContains (length h) x) = (SRBool b, h')
    /\ spec_step eq_dec w' (SContains (length h) x) (SRBool b) w'.
Proof.
  intros E SZ NA.
  assert (SZ1 : sized 0 ops) by (clear - SZ; revert SZ; generalize 0%nat;
    induction ops as [|o ops IH]; intros k; cbn; [auto|intros [X Y]; split; eauto]).
  pose proof (run_ok eqb eq_dec E fuel ops [] (Forall_nil _) SZ1 NA) as H.
  pose proof (run_sized eqb eq_dec E fuel ops [] [SOp LSub n (ASet m)] (Forall_nil _) SZ NA) as HS.
  destruct (run eqb (S fuel) [] ops) as [rs h]. destruct H as [H G]. cbn [snd] in HS.
  destruct HS as [HS _]. cbn [objs] in HS. inversion HS as [|? ? L1 HS']; subst. inversion HS' as [|? ? L2 _]; subst.
  destruct (nth_ex h n L1) as [s En], (nth_ex h m L2) as [t Em].
  assert (Hs : ok s) by (eapply good_nth; eauto). assert (Ht : ok t) by (eapply good_nth; eauto).
  exists (abs eqb h), (SRObj (length h)), (h ++ [FComb LSub s (FRef m)]), (mem eqb s x && negb (mem eqb t x)),
    (abs eqb h ++ [p_op LSub (mem eqb s) (mem eqb t)]).
  split; auto. split; [cbn; unfold get; rewrite En; reflexivity|].
  assert (LA : length (abs eqb h) = length h) by (unfold abs; apply map_length).
  split; [|split].
  - cbn [spec_step]. exists (mem eqb s), (mem eqb t). unfold abs. rewrite !nth_error_map, En. cbn [p_arg]. rewrite nth_error_map, Em.
    split; auto. split; auto. split; [now rewrite map_length|]. eexists. split; [reflexivity|reflexivity].
  - cbn [step]. unfold get. rewrite nth_error_app2, Nat.sub_diag by lia. cbn [nth_error bind].
    rewrite (diff_contains eqb fuel _ s m t); auto. rewrite nth_error_app1; auto.
  - cbn [spec_step]. exists (p_op LSub (mem eqb s) (mem eqb t)). rewrite nth_error_app2, LA, Nat.sub_diag by lia. auto.
Qed.
Example C19_difference_partial_witness :
  fst (run Z.eqb 1 [] [SNew [1; 2]; SNew [2]; SOp LSub 0 (ASet 1); SContains 2 1; SContains 2 2]) = [SRObj 0; SRObj 1; SRObj 2; SRBool true; SRBool false].
Proof. reflexivity. Qed.
Print Assumptions C19_difference_partial.

(** r = s - t keeps t itself: adding 2 to t afterwards takes 2 out of r. *)
Theorem C19_difference_alias_refuted : exists ops : list (sop Z), sized 0 ops
  /\ last (fst (run Z.eqb 5 [] ops)) SNone = SRBool false
  /\ forall rs w, spec_run Z.eq_dec [] ops rs w -> last rs SNone = SRBool true.
Proof.
  exists [SNew [1; 2]; SNew [1]; SOp LSub 0 (ASet 1); SAdd 1 2; SContains 2 2].
  split; [cbn; repeat split; repeat constructor|]. split; [reflexivity|]. intros rs w H.
  repeat match goal with
  | H : spec_run _ _ (_ :: _) _ _ |- _ => inversion H; clear H; subst
  | H : spec_run _ _ [] _ _ |- _ => inversion H; clear H; subst
  end.
  cbn [spec_step p_arg] in *. unfold created in *.
  repeat match goal with
  | H : exists _, _ |- _ => destruct H
  | H : _ /\ _ |- _ => destruct H; subst
  end. cbn in *.
  unfold upd in *. repeat match goal with
  | H : exists _, _ |- _ => destruct H
  | H : _ /\ _ |- _ => destruct H; subst
  end.
  repeat match goal with H : Some _ = Some _ |- _ => injection H as <- end.
  match goal with H : _ = Some ?p |- SRBool (?p 2) = _ =>
    change (nth_error w4 2 = Some p) in H; rename H into N2 end.
  match goal with H : forall m q, nth_error _ m = Some q -> _ |- _ => apply H in N2 end.
  cbn in N2. injection N2 as <-. rewrite H7, H3, H6. reflexivity.
Qed.
Print Assumptions C19_difference_alias_refuted.

(** r = s - t; t |= r: t now refers to itself, and a membership test never ends
    (RecursionError), whatever the stack. *)
Theorem C19_difference_cycle_refuted : exists ops : list (sop Z), sized 0 ops
  /\ forall fuel, last (fst (run Z.eqb fuel [] ops)) SNone = SRErr OutOfFuel.
Proof.
  exists [SNew [1; 2]; SNew [1]; SOp LSub 0 (ASet 1); SIop LOr 1 (ASet 2); SContains 1 2].
  split; [cbn; repeat split; repeat constructor|]. intro fuel. cbn [run step is_set operand force get nth_error new bind ret length app set_nth fst last].
  assert (X : forall h f x, nth_error h 1 = Some (FComb LOr (FLin [1]) (FComb LSub (FLin [1; 2]) (FRef 1))) ->
     contains Z.eqb f h (FComb LOr (FLin [1]) (FComb LSub (FLin [1; 2]) (FRef 1))) x = Err OutOfFuel).
  { intros h f x E. induction f as [|f IH]; [reflexivity|].
    assert (R : contains Z.eqb (S f) h (FRef 1) x = Err OutOfFuel).
    { transitivity (match nth_error h 1 with Some s' => contains Z.eqb f h s' x | None => Err OutOfFuel end); [reflexivity|].
      rewrite E. exact IH. }
    transitivity (do a <- contains Z.eqb (S f) h (FLin [1]) x; do b <- (do c <- contains Z.eqb (S f) h (FLin [1; 2]) x;
      do d <- contains Z.eqb (S f) h (FRef 1) x; Ok (lop_fn LSub c d)); Ok (lop_fn LOr a b)); [reflexivity|].
    rewrite R. reflexivity. }
  change (uniq Z.eqb [1; 2]) with [1; 2]. change (uniq Z.eqb [1]) with [1].
  rewrite X by reflexivity. reflexivity.
Qed.
Print Assumptions C19_difference_cycle_refuted.

(** t = s.union() is s itself, so changing t changes s. *)
Theorem C19_union_self_refuted : exists ops : list (sop Z), sized 0 ops
  /\ fst (run Z.eqb 5 [] ops) = [SRObj 0; SRObj 0] /\ forall w, ~ spec_run Z.eq_dec [] ops [SRObj 0; SRObj 0] w.
Proof.
  exists [SNew [1]; SMeth LOr 0 []]. split; [cbn; repeat split; repeat constructor|]. split; [reflexivity|].
  intros w H. inversion H as [|? ? ? ? ? ? ? H1 H2]; subst. inversion H2 as [|? ? ? ? ? ? ? H3 H4]; subst. cbn in *. unfold created in *.
  destruct H1 as (_ & q & -> & _). destruct H3 as (p & r & _ & _ & X & _). discriminate.
Qed.
Print Assumptions C19_union_self_refuted.
