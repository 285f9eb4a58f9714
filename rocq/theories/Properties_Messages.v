(** C10: message collection *)
From Coq Require Import ZArith List Bool Lia Sorted Permutation.
From Verif Require Import Py Str_Model Messages_Model Messages_Spec Messages_Proofs.
Import ListNotations.
Open Scope Z_scope.

(** Whatever the checks return: one message per place, in order, each a returned message
    that no other at its place beats. *)
Theorem C10_collect : forall unable ls, shows unable (concat ls) (run_checkables unable ls).
Proof. exact run_checkables_ok. Qed.
(** [shows] leaves exactly one message for each place. *)
Theorem C10_one_per_place : forall unable l out, shows unable l out ->
  forall a b, In a out -> In b out -> same_place a b -> a = b.
Proof.
  intros unable l out (S & _) . induction S as [|x out S IH N]; intros a b; [intros []|]. rewrite Forall_forall in N.
  intros [<-|A] [<-|B] P; [reflexivity| | |now apply IH].
  - specialize (N b B). unfold same_place, before in *. lia.
  - specialize (N a A). unfold same_place, before in *. lia.
Qed.
(** The places and severities shown depend neither on the order of the checks nor on the
    order of messages within one. *)
Theorem C10_order : forall unable ls1 ls2, Permutation (concat ls1) (concat ls2) ->
  map (fun m => (m_file m, m_line m, m_col m, m_state m)) (run_checkables unable ls1) =
  map (fun m => (m_file m, m_line m, m_col m, m_state m)) (run_checkables unable ls2).
Proof.
  intros unable ls1 ls2 P.
  assert (H : map summary (run_checkables unable ls1) = map summary (run_checkables unable ls2)).
  { apply (shows_unique unable (concat ls1) (concat ls2)); try apply run_checkables_ok.
    intro m. split; apply Permutation_in; [|symmetry]; exact P. }
  revert H. generalize (run_checkables unable ls1) (run_checkables unable ls2). induction l as [|a l IH]; intros [|b l']; cbn; try discriminate; auto.
  intro H. injection H as H1 H2 H3 H4 H5. f_equal; [|now apply IH]. rewrite H1, H2, H3.
  f_equal. destruct (m_state a), (m_state b); try reflexivity; discriminate.
Qed.
(** Clamping to the class moves a message only when it is in another file, and changes only
    its place: the severities are unchanged. *)
Theorem C10_clamp : forall same f n l,
  Forall2 (fun m m' => m_state m' = m_state m /\ m_text m' = m_text m /\ m_col m' = m_col m /\
    (same (m_file m) = true -> m' = m) /\ (same (m_file m) = false -> m_file m' = f /\ m_line m' = n)) l (clamp same f n l).
Proof.
  intros same f n l. induction l as [|m l IH]; constructor; [|exact IH].
  destruct (same (m_file m)) eqn:E; cbn; repeat split; auto; discriminate.
Qed.

Example C10_ex :
  run_checkables (fun t => slen t =? 3)
    [[mkMsg CONFIRMED [65] 2 10 0; mkMsg POST_FAIL [65; 66; 67] 1 7 0];
     [mkMsg POST_FAIL [65; 66; 67; 68; 69] 1 7 0; mkMsg EXEC_ERR [65] 1 7 0; mkMsg POST_FAIL [70; 71; 72; 73] 1 7 0; mkMsg CANNOT_CONFIRM [] 1 3 0]]
  = [mkMsg CANNOT_CONFIRM [] 1 3 0; mkMsg POST_FAIL [70; 71; 72; 73] 1 7 0; mkMsg CONFIRMED [65] 2 10 0].
Proof. vm_compute. reflexivity. Qed.

Print Assumptions C10_collect.
Print Assumptions C10_one_per_place.
Print Assumptions C10_order.
Print Assumptions C10_clamp.
