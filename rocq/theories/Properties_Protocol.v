(** C147: built-in functions that call special methods.  Model: [Protocol_Model]; spec: [Protocol_Spec]. *)
From Coq Require Import ZArith List Bool Lia.
Import ListNotations.
From Verif Require Import Py Protocol_Model Protocol_Spec.
Open Scope Z_scope.

(** C147, partial.  len is what CPython's is, if the object has no attribute __len__ of its own and __len__ fails or returns
    a proper length.  Missing: other results and own attributes; refuted below. *)
Theorem C147_len_partial (o : object) : own_len o = None ->
  match class_len o with Some (Ok v) => exists z, v = Int z /\ 0 <= z <= maxsize | _ => True end ->
  len_ o = match py_len o with Ok z => Ok (Int z) | Err e => Err e end.
Proof.
  intros N H. unfold len_, py_len. rewrite N. destruct (class_len o) as [[v|e]|]; [|reflexivity|reflexivity]. destruct H as (z & -> & A & B). cbn [bind].
  destruct (Z.ltb_spec z 0); [lia|]. destruct (Z.ltb_spec maxsize z); [lia|]. reflexivity.
Qed.
Print Assumptions C147_len_partial.
(** C147, partial.  The same for hash and for repr. *)
Theorem C147_hash_partial (o : object) :
  match class_hash o with Some (Ok v) => exists z, v = Int z /\ - 2 ^ 63 <= z <= maxsize /\ z <> -1 | _ => True end ->
  hash_ o = match py_hash o with Ok z => Ok (Int z) | Err e => Err e end.
Proof.
  intros H. unfold hash_, py_hash. destruct (class_hash o) as [[v|e]|]; [|reflexivity|reflexivity]. destruct H as (z & -> & (A & B) & C).
  unfold reduce_hash. replace ((- 2 ^ 63 <=? z) && (z <=? maxsize)) with true by (symmetry; apply andb_true_iff; split; apply Z.leb_le; assumption).
  destruct (Z.eqb_spec z (-1)); [contradiction|reflexivity].
Qed.
Print Assumptions C147_hash_partial.
Theorem C147_repr_partial (o : object) : match class_repr o with Ok v => exists s, v = Text s | Err _ => True end ->
  repr_ o = match py_repr o with Ok s => Ok (Text s) | Err e => Err e end.
Proof. intros H. unfold repr_, py_repr. destruct (class_repr o) as [v|e]; [|reflexivity]. now destruct H as (s & ->). Qed.
Print Assumptions C147_repr_partial.
(** C147, partial.  sorted takes the items that iter() runs over, if the class has __iter__ and the object none itself. *)
Theorem C147_sorted_partial (sort : list Z -> list Z) (o : object) : own_iter o = None -> (class_iter o = None -> class_getitem o = None) ->
  sorted_ sort o = match py_items o with Ok l => Ok (sort l) | Err e => Err e end.
Proof.
  intros N H. unfold sorted_, is_iterable, py_items. rewrite N. destruct (class_iter o) as [[[]|[]]|]; cbn; try reflexivity. now rewrite H.
Qed.
Print Assumptions C147_sorted_partial.

Definition nothing : object := Object None None None (Ok (Text [])) None None None.
Definition proper : object := Object (Some (Ok (Int 3))) None (Some (Ok (Int (-7)))) (Ok (Text [120])) (Some (Ok (Items [3; 1; 2]))) None None.
Example C147_len_partial_witness : own_len proper = None /\ 0 <= 3 <= maxsize /\ len_ proper = Ok (Int 3) /\ len_ nothing = Err TypeError.
Proof. repeat split; vm_compute; discriminate. Qed.
Example C147_hash_partial_witness : - 2 ^ 63 <= -7 <= maxsize /\ hash_ proper = Ok (Int (-7)).
Proof. repeat split; vm_compute; discriminate. Qed.
Example C147_repr_partial_witness : class_repr proper = Ok (Text [120]).
Proof. reflexivity. Qed.
Example C147_sorted_partial_witness : own_iter proper = None /\ py_items proper = Ok [3; 1; 2] /\ sorted_ (fun l => l) nothing = Err TypeError.
Proof. repeat split. Qed.

(** C147, violated.  A negative length is returned as it is; CPython raises ValueError.  A length that is no int is
    returned; CPython raises TypeError.  An attribute __len__ of the object itself is called; CPython does not. *)
Theorem C147_len_refuted : exists a b c d : object,
  (len_ a = Ok (Int (-1)) /\ py_len a = Err ValueError) /\ (len_ b = Ok Other /\ py_len b = Err TypeError) /\
  (len_ c = Ok (Int 5) /\ py_len c = Err TypeError) /\ (len_ d = Ok (Int 5) /\ py_len d = Ok 3).
Proof.
  exists (Object (Some (Ok (Int (-1)))) None None (Ok (Text [])) None None None), (Object (Some (Ok Other)) None None (Ok (Text [])) None None None),
    (Object None (Some (Ok (Int 5))) None (Ok (Text [])) None None None),
    (Object (Some (Ok (Int 3))) (Some (Ok (Int 5))) None (Ok (Text [])) None None None). repeat split.
Qed.
Print Assumptions C147_len_refuted.
(** C147, violated.  A __hash__ that returns -1 or an int beyond 64 bits (a common product of hashes): CPython
    gives another number; and results that are no ints are returned. *)
Theorem C147_hash_refuted : exists a b c : object,
  (hash_ a = Ok (Int (-1)) /\ py_hash a = Ok (-2)) /\ (hash_ b = Ok (Int (2 ^ 64)) /\ py_hash b = Ok 8) /\ (hash_ c = Ok Other /\ py_hash c = Err TypeError).
Proof.
  exists (Object None None (Some (Ok (Int (-1)))) (Ok (Text [])) None None None), (Object None None (Some (Ok (Int (2 ^ 64)))) (Ok (Text [])) None None None),
    (Object None None (Some (Ok Other)) (Ok (Text [])) None None None). repeat split.
Qed.
Print Assumptions C147_hash_refuted.
(** C147, violated.  A __repr__ that returns no string is not refused. *)
Theorem C147_repr_refuted : exists o : object, repr_ o = Ok (Int 1) /\ py_repr o = Err TypeError.
Proof. exists (Object None None None (Ok (Int 1)) None None None). split; reflexivity. Qed.
Print Assumptions C147_repr_refuted.
(** C147, violated.  An object with __getitem__ and without __iter__ cannot be sorted. *)
Theorem C147_sorted_refuted : exists o : object, forall sort, sorted_ sort o = Err AttributeError /\ py_items o = Ok [3; 1; 2].
Proof. exists (Object None None None (Ok (Text [])) None None (Some [3; 1; 2])). intros sort. split; reflexivity. Qed.
Print Assumptions C147_sorted_refuted.
(** C147, violated.  setattr with a symbolic name raises TypeError. *)
Theorem C147_setattr_refuted : exists (attrs : attributes) (name : nat) (v : Z),
  py_setattr attrs name v = Ok [(name, v)] /\ setattr_ true attrs name v = Err TypeError.
Proof. exists [], 0%nat, 1. repeat split. Qed.
Print Assumptions C147_setattr_refuted.
