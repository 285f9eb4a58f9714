(** C39: list.index, str.join and the reprs of containers *)
From Coq Require Import ZArith List Bool Lia.
From Verif Require Import Py Range_Spec PySeq_Spec ListFn_Model ListFn_Spec ListFn_Proofs.
Import ListNotations.
Open Scope Z_scope.

(** Full statement: list.index answers as CPython's.  Proved, for items that equal
    themselves: ValueError exactly when CPython raises it, and otherwise the position counted
    from the lower bound; so the same position when that is 0 (always when no start is given). *)
Theorem C39_index_partial : forall A (is_ eqb : A -> A -> bool), (forall x y, is_ x y = true -> eqb x y = true) ->
  forall (self : list A) x a b, let n := Z.of_nat (length self) in n <= 9223372036854775807 ->
  first_pos (fun y => is_ x y || eqb x y) self (low n a) (high n b) (map_res (Z.add (low n a)) (list_index A eqb self x a b)) /\
  (low n a = 0 -> first_pos (fun y => is_ x y || eqb x y) self (low n a) (high n b) (list_index A eqb self x a b)).
Proof.
  intros A is_ eqb IE self x a b n MX.
  assert (SAME : forall y, is_ x y || eqb x y = eqb x y) by (intro y; destruct (is_ x y) eqn:E; [now rewrite (IE _ _ E)|reflexivity]).
  assert (EXT : forall u w r, first_pos (eqb x) self u w r -> first_pos (fun y => is_ x y || eqb x y) self u w r).
  { intros u w [i|e]; cbn; [intros (R & (y & Y & EY) & F)|intros (-> & F)].
    - split; [exact R|]. split; [exists y; rewrite SAME; auto|]. intros j z J Z. rewrite SAME. eauto.
    - split; [reflexivity|]. intros j z J Z. rewrite SAME. eauto. }
  pose proof (index_shift A eqb self x a b MX) as H. cbv zeta in H. fold n in H. split; [now apply EXT|].
  intro Z0. apply EXT. rewrite Z0 in *. destruct (list_index A eqb self x a b); exact H.
Qed.
(** [1, 2, 3].index(3, 1) is 2, not 1 *)
Theorem C39_index_refuted : exists self x a, list_index Z Z.eqb self x (Some a) None = Ok 1 /\
  first_pos (fun y => x =? y) self (low 3 (Some a)) (high 3 None) (Ok 2).
Proof.
  exists [1; 2; 3], 3, 1. split; [reflexivity|]. cbn. split; [lia|]. split; [exists 3; auto|]. intros j y J. assert (j = 1) by lia. subst. cbn. intros [= <-]. reflexivity.
Qed.
(** An item that does not equal itself (a NaN) is not found, though it is the same object. *)
Theorem C39_identity_refuted : exists (is_ eqb : Z -> Z -> bool) self x, list_index Z eqb self x None None = Err ValueError /\
  first_pos (fun y => is_ x y || eqb x y) self 0 1 (Ok 0).
Proof. exists Z.eqb, (fun _ _ => false), [5], 5. split; [reflexivity|]. cbn. split; [lia|]. split; [exists 5; auto|]. intros; lia. Qed.
Theorem C39_join : forall sep items s, separated sep items s <-> s = join sep items.
Proof. intros. split; [intro H; exact (separated_fun _ _ _ H _ (join_ok sep items))|intros ->; apply join_ok]. Qed.
Theorem C39_list_repr : forall items, exists body, separated [44; 32] items body /\ list_repr items = [91] ++ body ++ [93].
Proof. intro. exists (join comma items). split; [apply join_ok|reflexivity]. Qed.
Theorem C39_dict_repr : forall items, exists body, separated [44; 32] (map (fun kv => fst kv ++ [58; 32] ++ snd kv) items) body /\ dict_repr items = [123] ++ body ++ [125].
Proof. intro. eexists. split; [apply join_ok|reflexivity]. Qed.
(** Full statement: tuple_repr gives the repr of every tuple; proved unless it has one item. *)
Theorem C39_tuple_repr_partial : forall items, length items <> 1%nat -> py_tuple_repr items (tuple_repr items).
Proof.
  intros items N. exists (join comma items). split; [apply join_ok|]. destruct items as [|x [|y r]]; try reflexivity. cbn in N. congruence.
Qed.
(** (1,) is shown as (1) *)
Theorem C39_tuple_repr_refuted : exists items, ~ py_tuple_repr items (tuple_repr items).
Proof.
  exists [[49]]. intros (body & S & E). rewrite (separated_fun _ _ _ S [49] (sep_one _ _)) in E. discriminate.
Qed.

Example C39_index_case : list_index Z Z.eqb [4; 5; 6; 5] 5 None (Some (-1)) = Ok 1 /\ low 4 None = 0. Proof. split; reflexivity. Qed.
Example C39_join_case : join [44] [[1]; [2]; [3]] = [1; 44; 2; 44; 3]. Proof. reflexivity. Qed.
Example C39_repr_case : list_repr [[49]; [50]] = [91; 49; 44; 32; 50; 93] /\ tuple_repr [[49]; [50]] = [40; 49; 44; 32; 50; 41] /\ dict_repr [([49], [50])] = [123; 49; 58; 32; 50; 125].
Proof. repeat split; reflexivity. Qed.

Print Assumptions C39_index_partial.
Print Assumptions C39_index_refuted.
Print Assumptions C39_identity_refuted.
Print Assumptions C39_join.
Print Assumptions C39_list_repr.
Print Assumptions C39_dict_repr.
Print Assumptions C39_tuple_repr_partial.
Print Assumptions C39_tuple_repr_refuted.
