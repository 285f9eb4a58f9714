(** C08: paths marked as approximate (cap_result_at_unknown). *)
From Coq Require Import List Bool ZArith Lia.
From Verif Require Import SearchTree_Model StatusCap_Model StatusCap_Proofs.
Import ListNotations.

(** Full property: if any visited path set the cap, the final status is not
    CONFIRMED.  It is false (below).  What holds: if the last path visited set it
    and made at least one decision, the final status is not CONFIRMED. *)
Theorem C08_last_partial : forall vs v s,
  r_visits r_start (vs ++ [v]) = Some s ->
  v_cap v = true -> v_path v <> [] ->
  final_status s <> Some Confirmed.
Proof.
  intros vs v s H C P. rewrite visits_app in H.
  destruct (r_visits r_start vs) as [s0|]; [|discriminate]. cbn [r_visits] in H.
  destruct (r_visit s0 v) as [s1|] eqn:V; [|discriminate]. inversion H; subst.
  eapply capped_visit; eauto.
Qed.

(** So if every path sets it, the status is not CONFIRMED wherever the search stops. *)
Theorem C08_all_partial : forall vs s,
  Forall (fun v => v_cap v = true /\ v_path v <> []) vs ->
  r_visits r_start vs = Some s ->
  final_status s <> Some Confirmed.
Proof.
  intros vs s F H. destruct vs as [|v0 vs0].
  { inversion H; subst. cbn. discriminate. }
  destruct (@exists_last _ (v0 :: vs0)) as (vs' & v & E); [discriminate|]. rewrite E in *.
  apply Forall_app in F as [_ F]. inversion F as [|? ? [C P]]; subst.
  eapply C08_last_partial; eauto.
Qed.

(** Sharing result objects between nodes is harmless as long as no cap is set: the
    objects contain exactly what SearchTree_Model computes with values. *)
Theorem C08_sharing_harmless : forall vs,
  Forall (fun v => v_cap v = false) vs ->
  match r_visits r_start vs, v_visits Stem vs with
  | Some s, Some n => content (r_heap s) (r_root s) = n
  | None, None => True
  | _, _ => False
  end.
Proof.
  intros vs F. apply (visits_ok vs F r_start); cbn; [exists []; reflexivity|exact I].
Qed.
Print Assumptions C08_last_partial.
Print Assumptions C08_all_partial.
Print Assumptions C08_sharing_harmless.

(** "if x > 0: float(x) ...": only the first path is approximate. *)
Definition cap_conf : analysis := mkA (Some Confirmed) [] None.
Definition cap_two (first second : bool) : list visit :=
  [mkVis [SWorst None true] cap_conf first; mkVis [SWorst None false] cap_conf second].

Example C08_last_nonvacuous :
  exists s, r_visits r_start (cap_two false true) = Some s /\ final_status s = Some Unknown /\
            r_exh (r_root s) = true.
Proof. eexists. repeat split. Qed.
Example C08_all_nonvacuous :
  Forall (fun v => v_cap v = true /\ v_path v <> []) (cap_two true true) /\
  exists s, r_visits r_start (cap_two true true) = Some s.
Proof. split; [repeat constructor; discriminate|]. eexists. reflexivity. Qed.
Example C08_sharing_nonvacuous :
  exists s, r_visits r_start (cap_two false false) = Some s /\ final_status s = Some Confirmed.
Proof. eexists. repeat split. Qed.

(** The cap is forgotten when another path is explored afterwards: the overall
    status is CONFIRMED although an approximate path was part of it. *)
Theorem C08_forgotten_refuted : exists vs s,
  Exists (fun v => v_cap v = true /\ v_path v <> []) vs /\
  r_visits r_start vs = Some s /\ r_exh (r_root s) = true /\
  final_status s = Some Confirmed.
Proof.
  exists (cap_two true false). eexists. split; [left; split; [reflexivity|discriminate]|].
  repeat split.
Qed.

(** It has no effect at all on a path without decisions. *)
Theorem C08_no_decision_refuted : exists v s,
  v_cap v = true /\ r_visits r_start [v] = Some s /\ r_exh (r_root s) = true /\
  final_status s = Some Confirmed.
Proof. exists (mkVis [] cap_conf true). eexists. repeat split. Qed.
Print Assumptions C08_forgotten_refuted.
Print Assumptions C08_no_decision_refuted.
