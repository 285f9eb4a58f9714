(* C119: dict(...). *)
From Coq Require Import ZArith List Bool Lia Permutation.
From Verif Require Import Py Map_Model Map_Spec Map_Proofs DictNew_Model DictNew_Spec DictNew_Proofs Properties_Map.
Import ListNotations.
Open Scope Z_scope.

(** What is seen of the new dictionary, or the exception. *)
Definition seen_alike {U} (eqb : U -> U -> bool) (s : shell U U) (d : Map_Spec.dict U U) : Prop :=
  (forall k, match sh_get eqb s k, value d k with
             | Ok v, Some w => v = w | Err KeyError, None => True | _, _ => False end) /\
  sh_len s = Z.of_nat (length (order d)) /\ Permutation (sh_iter eqb s) (order d).

(** C119.  The full claim: dict(...) raises what CPython's raises, or gives a dictionary with the
    same items in the same order, whatever becomes of the argument afterwards:

      forall eqb eq_dec hashable h h' a kwargs, arg_ok a ->
        match dict_entries eqb hashable h a with
        | Err e => py_dict eq_dec hashable h a kwargs = Err e
        | Ok es => exists d, py_dict eq_dec hashable h a kwargs = Ok d /\
            seen_alike eqb (dict_seen eqb h' es kwargs) d /\ sh_iter eqb (dict_seen eqb h' es kwargs) = order d
        end

    Proved: the items, for pairs that have a length and keys that have a hash, as long as the
    pairs are not changed; the order, if no key comes twice.  Refuted for the rest below. *)
Theorem new_dict_items_partial : forall U (eqb : U -> U -> bool) eq_dec hashable h a kwargs,
  decides eqb -> arg_ok a -> sized_hashable hashable h a ->
  match dict_entries eqb hashable h a with
  | Err e => py_dict eq_dec hashable h a kwargs = Err e
  | Ok es => exists d, py_dict eq_dec hashable h a kwargs = Ok d /\ seen_alike eqb (dict_seen eqb h es kwargs) d
  end.
Proof.
  intros U eqb eq_dec hashable h a kwargs E A G.
  pose proof (entries_ok eqb eq_dec hashable E h a A G) as H.
  assert (P : py_dict eq_dec hashable h a kwargs = bind (py_dict eq_dec hashable h a []) (fun d => Ok (d_update eq_dec d kwargs))).
  { unfold py_dict. destruct a as [|l|l|]; try reflexivity. cbn. now destruct (add_pairs _ _ _ _ _). }
  destruct (dict_entries eqb hashable h a) as [es|e]; [|now rewrite P, H].
  destruct H as (d & D & R & _). rewrite P, D. cbn [bind]. eexists. split; [reflexivity|].
  apply (RS_update eqb eq_dec E kwargs) in R. pose proof (RS_iter eqb eq_dec E _ _ R) as I.
  destruct R as (_ & _ & _ & V & L). split; [|split; auto].
  intros k. rewrite V. unfold dict_seen. destruct (sh_get eqb _ k) as [v|e] eqn:X; cbn; auto.
  now rewrite (sh_get_err _ _ _ _ X).
Qed.

Theorem new_dict_order_partial : forall U (eqb : U -> U -> bool) eq_dec hashable h a kwargs es,
  decides eqb -> arg_ok a -> sized_hashable hashable h a ->
  NoDup (arg_keys h a) -> (forall k, In k (map fst kwargs) -> ~ In k (arg_keys h a)) ->
  dict_entries eqb hashable h a = Ok es ->
  exists d, py_dict eq_dec hashable h a kwargs = Ok d /\ sh_iter eqb (dict_seen eqb h es kwargs) = order d.
Proof.
  intros U eqb eq_dec hashable h a kwargs es E A G N K X.
  pose proof (entries_ok eqb eq_dec hashable E h a A G) as H. rewrite X in H. destruct H as (d & D & R & O).
  destruct (O N) as (-> & F).
  exists (d_update eq_dec (d_of eq_dec (flat_map (read h) es)) kwargs). split.
  - unfold py_dict in *. destruct (match a with ANone => _ | _ => _ end); cbn in *; [|easy]. injection D as ->. reflexivity.
  - pose proof (C16_order_partial eqb eq_dec (flat_map (read h) es) [MUpdate kwargs] E) as Q. cbn in Q.
    apply Q; [now rewrite F|]. constructor; [|constructor]. cbn. rewrite F. exact K.
Qed.

(** dict([(1, 10), (2, 20), (1, 30)], **{7: 70}): keys 1 and 2 *)
Definition pairs3 : heap Z := fun i => match i with 0%nat => [1; 10] | 1%nat => [2; 20] | 2%nat => [1; 30] | 3%nat => [5; 6; 7] | _ => [9; 90] end.
Definition small (k : Z) : bool := k <? 100.
Example new_dict_example :
  sized_hashable small pairs3 (AIter [ISized 0; ISized 1; ISized 2]) /\
  dict_entries Z.eqb small pairs3 (AIter [ISized 0; ISized 1; ISized 2]) = Ok [Own 1 30; Own 2 20] /\
  dict_entries Z.eqb small pairs3 (AIter [ISized 0; ISized 1]) = Ok [Shared 0; Shared 1] /\
  sh_items Z.eqb (dict_seen Z.eqb pairs3 [Shared 0; Shared 1] [(7, 70)]) = [(1, 10); (2, 20); (7, 70)] /\
  dict_entries Z.eqb small pairs3 (AIter [ISized 0; ISized 3]) = Err ValueError /\
  NoDup (arg_keys pairs3 (AIter [ISized 0; ISized 1])).
Proof.
  split; [|split; [|split; [|split; [|split]]]]; try reflexivity.
  - intros x [<-|[<-|[<-|[]]]]; reflexivity.
  - cbn. repeat constructor; cbn; intuition lia.
Qed.

(** dict([(1, 10), (9, 90), (9, 90)]) has the key 9 first. *)
Theorem new_dict_order_refuted : exists h a es d, sized_hashable small h a /\
  dict_entries Z.eqb small h a = Ok es /\ py_dict Z.eq_dec small h a [] = Ok d /\
  sh_iter Z.eqb (dict_seen Z.eqb h es []) = [9; 1] /\ order d = [1; 9].
Proof.
  exists pairs3, (AIter [ISized 0; ISized 4; ISized 5]). do 2 eexists. split; [|repeat split].
  intros x [<-|[<-|[<-|[]]]]; reflexivity.
Qed.
(** An updated key of the argument goes to the end. *)
Theorem new_dict_keyword_order_refuted : exists l kwargs es d,
  dict_entries Z.eqb small pairs3 (AMap l) = Ok es /\ py_dict Z.eq_dec small pairs3 (AMap l) kwargs = Ok d /\
  NoDup (map fst l) /\ sh_iter Z.eqb (dict_seen Z.eqb pairs3 es kwargs) = [2; 1] /\ order d = [1; 2].
Proof.
  exists [(1, 10); (2, 20)], [(1, 30)]. do 2 eexists. repeat split. repeat constructor; cbn; intuition lia.
Qed.
(** A key without a hash raises ValueError, not TypeError; a pair that is an iterator raises
    TypeError. *)
Theorem new_dict_unhashable_refuted : exists h a,
  dict_entries Z.eqb small h a = Err ValueError /\ py_dict Z.eq_dec small h a [] = Err TypeError.
Proof. exists (fun _ => [100; 1]), (AIter [ISized 0]). split; reflexivity. Qed.
Theorem new_dict_iterator_pair_refuted : exists h a d,
  dict_entries Z.eqb small h a = Err TypeError /\ py_dict Z.eq_dec small h a [] = Ok d /\ value d 1 = Some 2.
Proof. exists pairs3, (AIter [IIter [1; 2]]). eexists. repeat split. Qed.
(** p = [1, 10]; d = dict([p]); p[1] = 11: then d[1] is 11. *)
Theorem new_dict_shared_refuted : exists h h' a es d,
  dict_entries Z.eqb small h a = Ok es /\ py_dict Z.eq_dec small h a [] = Ok d /\
  value d 1 = Some 10 /\ sh_get Z.eqb (dict_seen Z.eqb h' es []) 1 = Ok 11.
Proof. exists pairs3, (fun _ => [1; 11]), (AIter [ISized 0]). do 2 eexists. repeat split. Qed.
(** A key that does not equal itself, like NaN, is there twice: [eqb] is false on 0, which is the
    same object both times. *)
Theorem new_dict_nan_refuted : exists eqb h a es d, (forall x y, x <> 0 -> (eqb x y = true <-> x = y)) /\
  dict_entries eqb small h a = Ok es /\ py_dict Z.eq_dec small h a [] = Ok d /\
  sh_len (dict_seen eqb h es []) = 2 /\ order d = [0].
Proof.
  exists (fun x y => (x =? y) && negb (x =? 0)), (fun _ => [0; 1]), (AIter [ISized 0; ISized 1]). do 2 eexists.
  split; [|repeat split]. intros x y N. rewrite andb_true_iff, negb_true_iff, Z.eqb_eq, Z.eqb_neq. tauto.
Qed.

Print Assumptions new_dict_items_partial.
Print Assumptions new_dict_order_partial.
Print Assumptions new_dict_order_refuted.
Print Assumptions new_dict_keyword_order_refuted.
Print Assumptions new_dict_unhashable_refuted.
Print Assumptions new_dict_iterator_pair_refuted.
Print Assumptions new_dict_shared_refuted.
Print Assumptions new_dict_nan_refuted.
