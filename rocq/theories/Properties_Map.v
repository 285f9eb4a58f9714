(** C15-C17: the map shell and the association-list dict behave as Python dicts. *)
From Coq Require Import ZArith List Bool Lia Permutation.
From Verif Require Import Py Map_Model Map_Spec Map_Proofs.
Import ListNotations.
Open Scope Z_scope.

Definition decides {K} (eqb : K -> K -> bool) : Prop := forall x y, eqb x y = true <-> x = y.
Example decides_Z : decides Z.eqb. Proof. exact Z.eqb_eq. Qed.

(** *** C15: every history on the shell answers as on a dict started from the same
    items; afterwards every lookup agrees, the keys iterated are the keys of the dict
    (each once), and len is their number. *)
Theorem C15_history {K V} (eqb : K -> K -> bool) eq_dec (items : list (K * V)) ops :
  decides eqb -> NoDup (map fst items) ->
  let s := sh_run eqb (sh_init items) ops in
  let d := d_run eq_dec (d_of eq_dec items) (map DMap ops) in
  fst s = fst d
  /\ (forall k, match sh_get eqb (snd s) k, value (snd d) k with
                | Ok v, Some w => v = w | Err KeyError, None => True | _, _ => False end)
  /\ Permutation (sh_iter eqb (snd s)) (order (snd d))
  /\ sh_len (snd s) = Z.of_nat (length (order (snd d))).
Proof.
  intros E N s d. destruct (sh_run_ok eqb eq_dec E ops _ _ (RS_init eqb eq_dec E items N)) as [O H].
  split; [exact O|]. split; [|split].
  - intro k. destruct H as (_ & _ & _ & G & _). unfold s, d. rewrite G.
    destruct (sh_get eqb _ k) as [v|e] eqn:Q; cbn; auto. apply sh_get_err in Q as ->. auto.
  - exact (RS_iter eqb eq_dec E _ _ H).
  - apply H.
Qed.
Example C15_history_witness :
  NoDup (map fst [(1, 10); (2, 20)])
  /\ fst (sh_run Z.eqb (sh_init [(1, 10); (2, 20)])
       [MDel 1; MGet 1; MLen; MSet 1 11; MPop 2 None; MPop 2 None; MSetDefault 1 5; MUpdate [(3, 30); (1, 0)]; MGet 1; MLen; MClear; MLen; MBool])
     = [RNone; RErr KeyError; RLen 1; RNone; RVal 20; RErr KeyError; RVal 11; RNone; RVal 0; RLen 2; RNone; RLen 0; RBool false].
Proof. split; [|reflexivity]. repeat constructor; cbn; intuition lia. Qed.
Print Assumptions C15_history.

(** [==] after any history: exactly when the other mapping has the same items. *)
Theorem C15_equality {K V} (eqb : K -> K -> bool) eq_dec (veqb : V -> V -> bool) (items : list (K * V)) ops other :
  decides eqb -> decides veqb -> NoDup (map fst items) -> NoDup (map fst other) ->
  (sh_eq eqb veqb (snd (sh_run eqb (sh_init items) ops)) other = true
   <-> d_equal (snd (d_run eq_dec (d_of eq_dec items) (map DMap ops))) (d_of eq_dec other)).
Proof.
  intros E VE N N'. destruct (sh_run_ok eqb eq_dec E ops _ _ (RS_init eqb eq_dec E items N)) as [_ H].
  exact (sh_eq_ok eqb eq_dec E veqb VE _ _ other H N').
Qed.
Example C15_equality_witness :
  sh_eq Z.eqb Z.eqb (snd (sh_run Z.eqb (sh_init [(1, 10); (2, 20)]) [MDel 1; MSet 3 30])) [(3, 30); (2, 20)] = true
  /\ sh_eq Z.eqb Z.eqb (snd (sh_run Z.eqb (sh_init [(1, 10); (2, 20)]) [MDel 1; MSet 3 30])) [(3, 30); (1, 20)] = false.
Proof. now vm_compute. Qed.
Print Assumptions C15_equality.

(** *** C16 *)
(** Full statement: after any history, iteration gives the keys in the dict's order,
    reversed iteration the reverse, popitem the last one, and a copy has the same
    items and length.
    Proved: it holds as long as the history sets only keys that the initial mapping
    does not have, and deletes nothing.  Missing: false otherwise (see below). *)
Theorem C16_order_partial {K V} (eqb : K -> K -> bool) eq_dec (items : list (K * V)) ops :
  decides eqb -> NoDup (map fst items) -> Forall (adds_only items) ops ->
  let s := snd (sh_run eqb (sh_init items) ops) in
  let d := snd (d_run eq_dec (d_of eq_dec items) (map DMap ops)) in
  sh_iter eqb s = order d /\ sh_reversed eqb s = rev (order d)
  /\ match sh_popitem eqb s with
     | Ok ((k, v), _) => fst (d_step eq_dec d DPopItem) = RItem k v
     | Err e => fst (d_step eq_dec d DPopItem) = RErr e
     end.
Proof.
  intros E N F s d. pose proof (RO_run eqb eq_dec E ops _ _ (RO_init eqb eq_dec E items N) F) as H.
  destruct (RO_iter eqb E _ _ H) as [I R]. split; [exact I|]. split; [exact R|].
  pose proof (popitem_some eqb eq_dec E _ _ (proj1 H)) as P. fold s d in P, R, H. cbn [d_step].
  rewrite <- R. unfold sh_popitem in *. destruct (sh_reversed eqb s) as [|k l] eqn:Q; [reflexivity|].
  destruct (sh_get eqb s k) as [v|e] eqn:G; cbn [bind] in *.
  - destruct H as [(_ & _ & _ & GV & _) _]. rewrite GV, G. cbn [opt fst].
    destruct (sh_del eqb s k); cbn [bind] in *; [reflexivity|]. destruct P as [-> P].
    rewrite P in R. discriminate.
  - destruct P as [-> P]. rewrite P in R. discriminate.
Qed.
Example C16_order_partial_witness :
  Forall (adds_only [(1, 10); (2, 20)]) [MSet 4 1; MSet 3 1; MUpdate [(4, 2); (5, 0)]; MSetDefault 6 7]
  /\ sh_iter Z.eqb (snd (sh_run Z.eqb (sh_init [(1, 10); (2, 20)]) [MSet 4 1; MSet 3 1; MUpdate [(4, 2); (5, 0)]; MSetDefault 6 7]))
     = [1; 2; 4; 3; 5; 6].
Proof.
  split; [|reflexivity]. repeat constructor; cbn; try lia.
Qed.
Print Assumptions C16_order_partial.

(** popitem after any history removes and returns some present item; it raises
    KeyError exactly on an empty map.  Missing: that it is the last inserted. *)
Theorem C16_popitem_partial {K V} (eqb : K -> K -> bool) eq_dec (items : list (K * V)) ops :
  decides eqb -> NoDup (map fst items) ->
  let s := snd (sh_run eqb (sh_init items) ops) in
  let d := snd (d_run eq_dec (d_of eq_dec items) (map DMap ops)) in
  match sh_popitem eqb s with
  | Ok ((k, v), s') => value d k = Some v /\ sh_len s' = sh_len s - 1
      /\ forall k', sh_contains eqb s' k' = if eq_dec k' k then false else sh_contains eqb s k'
  | Err e => e = KeyError /\ sh_len s = 0
  end.
Proof.
  intros E N s d. destruct (sh_run_ok eqb eq_dec E ops _ _ (RS_init eqb eq_dec E items N)) as [_ H].
  fold s d in H. pose proof (popitem_some eqb eq_dec E _ _ H) as P. destruct H as (_ & _ & [ND OK] & G & L).
  destruct (sh_popitem eqb s) as [[[k v] s']|e].
  - destruct P as [Q (_ & _ & _ & G' & L')]. rewrite G, Q. split; [reflexivity|]. unfold sh_len.
    rewrite L, L'. cbn [d_remove order]. rewrite (remove_len eqb eq_dec E); auto.
    2:{ apply OK. rewrite G, Q. discriminate. }
    split; [reflexivity|]. intro k'. specialize (G' k'). cbn in G'. unfold sh_contains. destruct (eq_dec k' k).
    + destruct (sh_get eqb s' k'); [discriminate|reflexivity].
    + rewrite G in G'. destruct (sh_get eqb s k'), (sh_get eqb s' k'); try discriminate; reflexivity.
  - destruct P as [-> P]. unfold sh_len. rewrite L, P. auto.
Qed.
Example C16_popitem_partial_witness :
  exists s, sh_popitem Z.eqb (snd (sh_run Z.eqb (sh_init [(1, 10); (2, 20)]) [MSet 1 11])) = Ok ((1, 11), s).
Proof. eexists. vm_compute. reflexivity. Qed.
Print Assumptions C16_popitem_partial.

(** A copy answers the same lookups and iterates the same keys.  Missing: its len. *)
Theorem C16_copy_partial {K V} (eqb : K -> K -> bool) (s : shell K V) :
  (forall k, sh_get eqb (sh_copy s) k = sh_get eqb s k) /\ sh_iter eqb (sh_copy s) = sh_iter eqb s
  /\ (muts s = [] -> slen s = Z.of_nat (length (inner s)) -> sh_len (sh_copy s) = sh_len s).
Proof. split; [reflexivity|]. split; [reflexivity|]. intros _ L. cbn. unfold sd_len. now rewrite <- L. Qed.
Example C16_copy_partial_witness :
  sh_get Z.eqb (sh_copy (snd (sh_run Z.eqb (sh_init [(1, 10)]) [MSet 2 20]))) 2 = Ok 20.
Proof. reflexivity. Qed.
Print Assumptions C16_copy_partial.

(** Updating a key of the initial mapping moves it to the end of the iteration. *)
Theorem C16_update_order_refuted : exists (items : list (Z * Z)) ops,
  NoDup (map fst items)
  /\ sh_iter Z.eqb (snd (sh_run Z.eqb (sh_init items) ops)) = [2; 1]
  /\ order (snd (d_run Z.eq_dec (d_of Z.eq_dec items) (map DMap ops))) = [1; 2].
Proof.
  exists [(1, 10); (2, 20)], [MSet 1 11]. split; [|now vm_compute]. repeat constructor; cbn; intuition lia.
Qed.
Print Assumptions C16_update_order_refuted.
(** A deleted and reinserted new key keeps its old place. *)
Theorem C16_reinsert_order_refuted : exists ops : list (mop Z Z),
  sh_iter Z.eqb (snd (sh_run Z.eqb (sh_init []) ops)) = [1; 2]
  /\ order (snd (d_run Z.eq_dec (d_of Z.eq_dec []) (map DMap ops))) = [2; 1].
Proof. exists [MSet 1 1; MSet 2 2; MDel 1; MSet 1 3]. now vm_compute. Qed.
Print Assumptions C16_reinsert_order_refuted.
(** reversed() yields an updated key twice. *)
Theorem C16_reversed_refuted : exists (items : list (Z * Z)) ops,
  NoDup (map fst items) /\ sh_reversed Z.eqb (snd (sh_run Z.eqb (sh_init items) ops)) = [1; 2; 1].
Proof.
  exists [(1, 10); (2, 20)], [MSet 1 11]. split; [|now vm_compute]. repeat constructor; cbn; intuition lia.
Qed.
Print Assumptions C16_reversed_refuted.
(** popitem need not remove the last inserted key. *)
Theorem C16_popitem_refuted : exists (items : list (Z * Z)) ops s',
  NoDup (map fst items)
  /\ sh_popitem Z.eqb (snd (sh_run Z.eqb (sh_init items) ops)) = Ok ((1, 11), s')
  /\ fst (d_step Z.eq_dec (snd (d_run Z.eq_dec (d_of Z.eq_dec items) (map DMap ops))) DPopItem) = RItem 2 20.
Proof.
  exists [(1, 10); (2, 20)], [MSet 1 11], (mkShell [(1, None)] [(1, 10); (2, 20)] 1).
  split; [|now vm_compute]. repeat constructor; cbn; intuition lia.
Qed.
Print Assumptions C16_popitem_refuted.
(** A copy taken after a mutation reports the length of the initial mapping. *)
Theorem C16_copy_len_refuted : exists (ops : list (mop Z Z)),
  let s := snd (sh_run Z.eqb (sh_init []) ops) in
  sh_len (sh_copy s) = 0 /\ sh_bool (sh_copy s) = false /\ sh_len s = 1 /\ sh_iter Z.eqb (sh_copy s) = [1].
Proof. exists [MSet 1 1]. now vm_compute. Qed.
Print Assumptions C16_copy_len_refuted.
(** [{1: 5} | m] keeps m's value replaced by the left operand's: in Python the right
    operand wins. *)
Theorem C16_ror_refuted : exists (m other : list (Z * Z)),
  sh_get Z.eqb (sh_ror Z.eqb (sh_init m) other) 1 = Ok 5
  /\ value (d_update Z.eq_dec (d_of Z.eq_dec other) m) 1 = Some 6.
Proof. exists [(1, 6)], [(1, 5)]. now vm_compute. Qed.
Print Assumptions C16_ror_refuted.

(** *** C17 *)
(** Every history, the ordered operations included, answers as on a dict; the keys
    stay unique. *)
Theorem C17_history {K V} (eqb : K -> K -> bool) eq_dec (items : list (K * V)) ops :
  decides eqb -> NoDup (map fst items) ->
  let s := sd_run eqb items ops in
  let d := d_run eq_dec (d_of eq_dec items) ops in
  fst s = fst d /\ sd_iter (snd s) = order (snd d) /\ NoDup (sd_iter (snd s))
  /\ forall k, match sd_get eqb (snd s) k, value (snd d) k with
               | Ok v, Some w => v = w | Err KeyError, None => True | _, _ => False end.
Proof.
  intros E N s d. destruct (sd_run_ok eqb eq_dec E ops _ _ (R_init eqb eq_dec E items N)) as [O H].
  fold s d in O, H. destruct H as (ND & OR & G). rewrite iter_fst. repeat split; auto.
  intro k. rewrite G. destruct (sd_get eqb (snd s) k) as [v|e] eqn:Q; cbn; auto.
  apply get_err in Q as ->. auto.
Qed.
Example C17_history_witness :
  fst (sd_run Z.eqb [(1, 10); (2, 20)]
    [DMap (MSet 1 11); DMap (MSet 3 30); DMap (MDel 1); DMap (MSet 1 12); DKeys; DReversed; DPopItem; DMap MLen; DPopItem; DPopItem; DPopItem])
  = [RNone; RNone; RNone; RNone; RKeys [2; 3; 1]; RKeys [1; 3; 2]; RItem 1 12; RLen 2; RItem 3 30; RItem 2 20; RErr KeyError].
Proof. reflexivity. Qed.
Print Assumptions C17_history.

Theorem C17_equality {K V} (eqb : K -> K -> bool) eq_dec (veqb : V -> V -> bool) (items other : list (K * V)) :
  decides eqb -> decides veqb -> NoDup (map fst items) -> NoDup (map fst other) ->
  (mapbase_eq eqb veqb items other = true <-> d_equal (d_of eq_dec items) (d_of eq_dec other)).
Proof.
  intros E VE N N'. rewrite (mapbase_eq_ok eqb eq_dec E veqb VE items other N N').
  destruct (R_init eqb eq_dec E items N) as (_ & _ & G), (R_init eqb eq_dec E other N') as (_ & _ & G').
  unfold d_equal. split; intros H k; specialize (H k); rewrite G, G' in *; auto.
Qed.
Example C17_equality_witness : mapbase_eq Z.eqb Z.eqb [(1, 10); (2, 20)] [(2, 20); (1, 10)] = true
  /\ mapbase_eq Z.eqb Z.eqb [(1, 10); (2, 20)] [(2, 20); (3, 10)] = false.
Proof. now vm_compute. Qed.
Print Assumptions C17_equality.

(** A key that is not equal to itself (float nan, here [None]): lookup tests identity
    first (line 172) but assignment does not (183), so assigning twice leaves the key
    twice and the first value visible; a dict has one entry with the second value. *)
Definition nan_eqb (x y : option Z) : bool := match x, y with Some x, Some y => x =? y | _, _ => false end.
Definition nan_is (x y : option Z) : bool := match x, y with Some x, Some y => x =? y | None, None => true | _, _ => false end.
Theorem C17_nan_refuted :
  exists d : list (option Z * Z), d = sd_set nan_eqb (sd_set nan_eqb [] None 1) None 2
  /\ sd_get (fun x y => nan_is x y || nan_eqb x y) d None = Ok 1 /\ sd_len d = 2.
Proof. eexists. split; [reflexivity|]. now vm_compute. Qed.
Print Assumptions C17_nan_refuted.
