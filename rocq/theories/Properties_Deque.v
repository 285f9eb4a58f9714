(** C35: deques and default dictionaries *)
From Coq Require Import ZArith List Bool Lia.
From Verif Require Import Py Range_Spec PySeq_Spec Deque_Model Deque_Spec Deque_Proofs.
Import ListNotations.
Open Scope Z_scope.

(** Full statement: for every bound and every history of calls, each call gives back what
    collections.deque gives and leaves the items it leaves.  Proved for unbounded deques
    (the ones made for symbolic arguments) whose items equal themselves ... *)
Theorem C35_history_partial : forall A (is_ eqb : A -> A -> bool), (forall x y, is_ x y = true -> eqb x y = true) ->
  forall os l, let '(rs, d') := run A is_ eqb (mkDq A l None) os in history A is_ eqb None l os rs (contents A d') /\ maxlen A d' = None.
Proof. exact run_ok. Qed.
(** ... and, with a bound of at least one, for each call that does not have to drop items
    except append and appendleft. *)
Theorem C35_bounded_partial : forall A (is_ eqb : A -> A -> bool), (forall x y, is_ x y = true -> eqb x y = true) ->
  forall d o, within A (maxlen A d) (contents A d) o ->
  match step A is_ eqb d o with
  | Ok (r, d') => does A is_ eqb (contents A d) (maxlen A d) o (Ok r) (contents A d') /\ maxlen A d' = maxlen A d
  | Err e => does A is_ eqb (contents A d) (maxlen A d) o (Err e) (contents A d)
  end.
Proof. exact step_ok. Qed.

(** The bound is ignored by extend, extendleft, insert and *. *)
Theorem C35_bound_refuted :
  (exists d xs r d', step Z Z.eqb Z.eqb d (Extend Z xs) = Ok (r, d') /\ ~ does Z Z.eqb Z.eqb (contents Z d) (maxlen Z d) (Extend Z xs) (Ok r) (contents Z d')) /\
  (exists d xs r d', step Z Z.eqb Z.eqb d (ExtendLeft Z xs) = Ok (r, d') /\ ~ does Z Z.eqb Z.eqb (contents Z d) (maxlen Z d) (ExtendLeft Z xs) (Ok r) (contents Z d')) /\
  (exists d i x r d', step Z Z.eqb Z.eqb d (Insert Z i x) = Ok (r, d') /\ ~ does Z Z.eqb Z.eqb (contents Z d) (maxlen Z d) (Insert Z i x) (Ok r) (contents Z d')) /\
  (exists d n r d', step Z Z.eqb Z.eqb d (Mul Z n) = Ok (r, d') /\ ~ does Z Z.eqb Z.eqb (contents Z d) (maxlen Z d) (Mul Z n) (Ok r) (contents Z d')).
Proof.
  split; [|split; [|split]].
  - exists (mkDq Z [1; 2] (Some 2)), [3]. eexists _, _. split; [reflexivity|]. cbn. intro H. inversion H.
  - exists (mkDq Z [1; 2] (Some 2)), [3]. eexists _, _. split; [reflexivity|]. cbn. intro H. inversion H.
  - exists (mkDq Z [1; 2] (Some 2)), 0, 3. eexists _, _. split; [reflexivity|]. cbn. intro H. inversion H; discriminate.
  - exists (mkDq Z [1; 2] (Some 2)), 2. eexists _, _. split; [reflexivity|]. cbn. intro H. inversion H.
Qed.
(** With a bound of zero, append raises where collections.deque drops the item. *)
Theorem C35_zero_refuted : exists d x, step Z Z.eqb Z.eqb d (Append Z x) = Err IndexError /\
  does Z Z.eqb Z.eqb (contents Z d) (maxlen Z d) (Append Z x) (Ok (RNone Z)) (contents Z d).
Proof. exists (mkDq Z [] (Some 0)), 1. split; [reflexivity|]. exact (does_append Z Z.eqb Z.eqb [] (Some 0) 1). Qed.
(** count compares with == only: an item that does not equal itself (a NaN) is not counted. *)
Theorem C35_count_refuted : exists (is_ eqb : Z -> Z -> bool) d x r d', step Z is_ eqb d (Count Z x) = Ok (r, d') /\
  does Z is_ eqb (contents Z d) (maxlen Z d) (Count Z x) (Ok (RInt Z 1)) (contents Z d) /\ r = RInt Z 0.
Proof.
  exists Z.eqb, (fun x y => Z.eqb x y && negb (Z.eqb x 0)), (mkDq Z [0] None), 0. eexists _, _. split; [reflexivity|]. split; [|reflexivity].
  exact (does_count Z Z.eqb (fun x y => Z.eqb x y && negb (Z.eqb x 0)) [0] None 0).
Qed.
(** Reading the attribute maxlen does not give the bound. *)
Theorem C35_maxlen_refuted : exists m, read_maxlen m <> Value m.
Proof. exists None. discriminate. Qed.

(** A default dictionary: an entry present is returned and nothing changes; otherwise the
    factory's value is stored and returned, or KeyError, or the factory's exception, and
    then nothing changes. *)
Theorem C35_defaultdict : forall K V (keqb : K -> K -> bool), (forall a b, keqb a b = true <-> a = b) ->
  forall factory (d : dict K V) k, let '(r, d') := dd_getitem K V keqb factory d k in
  match dget K V keqb d k with
  | Some v => r = Ok v /\ d' = d
  | None => match factory with
            | None => r = Err KeyError /\ d' = d
            | Some (Err e) => r = Err e /\ d' = d
            | Some (Ok v) => r = Ok v /\ forall k', dget K V keqb d' k' = if keqb k' k then Some v else dget K V keqb d k'
            end
  end.
Proof.
  intros K V keqb KE factory d k. unfold dd_getitem. destruct (dget K V keqb d k) as [v|]; [auto|].
  unfold missing. destruct factory as [[v|e]|]; auto. split; [reflexivity|]. intro k'. now apply dget_dset.
Qed.

Example C35_ex : run Z Z.eqb Z.eqb (mkDq Z [1; 2; 3] None) [Append Z 4; Rotate Z 1; PopLeft Z; Insert Z (-1) 9; Remove Z 7; Index Z 3 1 4; ExtendLeft Z [5; 6]; Pop Z]
  = ([Ok (RNone Z); Ok (RNone Z); Ok (RVal Z 4); Ok (RNone Z); Err ValueError; Ok (RInt Z 3); Ok (RNone Z); Ok (RVal Z 3)], mkDq Z [6; 5; 1; 2; 9] None).
Proof. vm_compute. reflexivity. Qed.
Example C35_ex_bounded : within Z (Some 3) [1; 2; 3] (Append Z 4) /\ step Z Z.eqb Z.eqb (mkDq Z [1; 2; 3] (Some 3)) (Append Z 4) = Ok (RNone Z, mkDq Z [2; 3; 4] (Some 3)).
Proof. split; [cbn; lia|reflexivity]. Qed.
Example C35_ex_dd : dd_getitem Z Z Z.eqb (Some (Ok 7)) [(1, 5)] 2 = (Ok 7, [(1, 5); (2, 7)]). Proof. reflexivity. Qed.

Print Assumptions C35_history_partial.
Print Assumptions C35_bounded_partial.
Print Assumptions C35_bound_refuted.
Print Assumptions C35_zero_refuted.
Print Assumptions C35_count_refuted.
Print Assumptions C35_maxlen_refuted.
Print Assumptions C35_defaultdict.
