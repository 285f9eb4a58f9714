(** C32: character classes.  [maxu] is sys.maxunicode. *)
From Coq Require Import ZArith List Bool Lia Sorted.
From Verif Require Import Py CharMask_Model CharMask_Spec CharMask_Proofs.
Import ListNotations.
Open Scope Z_scope.

(** Asking a mask, in Python or in the solver, is asking for membership. *)
Theorem C32_covers : forall m c, covers m c = true <-> holds m c.
Proof. exact covers_ok. Qed.
Theorem C32_smt_matches : forall m c, smt_matches m c = true <-> holds m c.
Proof. exact smt_matches_ok. Qed.
(** Every operation gives the mask of the set it names, keeps the class invariant and
    never trips its assertion. *)
Theorem C32_add : forall maxu m mn mx, valid maxu m -> canonical m ->
  Forall (fun p => first_of p <= mn) m -> 0 <= mn -> mx <= maxu + 1 ->
  gives maxu (add m mn mx) (fun c => holds m c \/ mn <= c < mx).
Proof.
  intros maxu m mn mx V C L B1 B2. destruct (add_ok maxu m mn mx V C) as (m' & E & V' & C' & _ & _ & H); [now auto|].
  exists m'. auto.
Qed.
Theorem C32_invert : forall maxu m, 0 <= maxu -> valid maxu m ->
  gives maxu (invert maxu m) (fun c => 0 <= c <= maxu /\ ~ holds m c).
Proof. exact invert_ok. Qed.
Theorem C32_union : forall maxu m o, valid maxu m -> valid maxu o ->
  gives maxu (union m o) (fun c => holds m c \/ holds o c).
Proof. exact union_ok. Qed.
Theorem C32_intersect : forall maxu m o, valid maxu m -> valid maxu o ->
  gives maxu (intersect m o) (fun c => holds m c /\ holds o c).
Proof. exact intersect_ok. Qed.
Theorem C32_subtract : forall maxu m o, 0 <= maxu -> valid maxu m -> valid maxu o ->
  gives maxu (subtract maxu m o) (fun c => holds m c /\ ~ holds o c).
Proof. exact subtract_ok. Qed.
(** Masks built by the operations are equal exactly when they hold the same characters. *)
Theorem C32_unique : forall maxu m n, valid maxu m -> valid maxu n -> canonical m -> canonical n ->
  (forall c, holds m c <-> holds n c) -> m = n.
Proof. exact canonical_unique. Qed.
(** The mask of a character predicate, of the domain of a character function, and of an
    ascending list. *)
Theorem C32_predicate_mask : forall maxu f,
  gives maxu (predicate_mask maxu f) (fun c => 0 <= c <= maxu /\ f c = true).
Proof. exact predicate_mask_ok. Qed.
Theorem C32_domain_mask : forall maxu T (f : Z -> option T),
  gives maxu (domain_mask maxu f) (fun c => 0 <= c <= maxu /\ f c <> None).
Proof. exact (@domain_mask_ok). Qed.
Theorem C32_make_mask : forall maxu l, StronglySorted Z.le l -> Forall (fun c => 0 <= c <= maxu) l ->
  gives maxu (make_mask l) (fun c => In c l).
Proof. exact make_mask_ok. Qed.
(** The computed mask of a general category holds exactly its characters; several
    categories give their union, or the rest of Unicode. *)
Theorem C32_category_mask : forall maxu K (eqb : K -> K -> bool), (forall a b, eqb a b = true <-> a = b) ->
  forall category k, 0 <= maxu ->
  valid maxu (category_mask maxu K eqb category k) /\
  forall c, holds (category_mask maxu K eqb category k) c <-> 0 <= c <= maxu /\ category c = k.
Proof. exact category_mask_ok. Qed.
Theorem C32_unicode_mask : forall maxu first others inv,
  0 <= maxu -> valid maxu first -> canonical first -> Forall (valid maxu) others ->
  gives maxu (unicode_mask maxu first others inv) (fun c =>
    if inv then 0 <= c <= maxu /\ ~ Exists (fun o => holds o c) (first :: others)
    else Exists (fun o => holds o c) (first :: others)).
Proof. exact unicode_mask_ok. Qed.

Example C32_ex : let m := [Rng 2 5; One 7] in let o := [One 4; Rng 6 9] in
  valid 9 m /\ valid 9 o /\ canonical m /\ canonical o /\
  union m o = Ok [Rng 2 5; Rng 6 9] /\ intersect m o = Ok [One 4; One 7] /\
  invert 9 m = Ok [Rng 0 2; Rng 5 7; Rng 8 10] /\ subtract 9 o m = Ok [One 6; One 8] /\
  predicate_mask 9 Z.even = Ok [One 0; One 2; One 4; One 6; One 8] /\
  category_mask 9 bool Bool.eqb (fun c => c <? 4) false = [Rng 4 10] /\
  covers m 7 = true /\ smt_matches m 5 = false.
Proof.
  cbn zeta. split; [|split; [|split; [|split]]]; [| |repeat constructor; lia|repeat constructor; lia|vm_compute; repeat split];
  (split; [repeat constructor; cbn; lia|cbn; lia]).
Qed.

Print Assumptions C32_covers.
Print Assumptions C32_smt_matches.
Print Assumptions C32_add.
Print Assumptions C32_invert.
Print Assumptions C32_union.
Print Assumptions C32_intersect.
Print Assumptions C32_subtract.
Print Assumptions C32_unique.
Print Assumptions C32_predicate_mask.
Print Assumptions C32_domain_mask.
Print Assumptions C32_make_mask.
Print Assumptions C32_category_mask.
Print Assumptions C32_unicode_mask.
