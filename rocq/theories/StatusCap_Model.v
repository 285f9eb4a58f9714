(** Model of StateSpace.cap_result_at_unknown and of the way results are shared
    between the nodes of the search tree: crosshair/statespace.py 354-360, 472-495,
    556-572, 585-613, 643-648, 675-691 and bubble_status 1320-1347.

    Unlike SearchTree_Model, results here are objects in a heap, because the cap
    is applied by assigning to an object that other nodes may share.  The decisions
    of a path are given as a list of [step]s; how they are made is
    SearchTree_Model's business. *)
From Coq Require Import List Bool ZArith.
From Verif Require Import SearchTree_Model.
Import ListNotations.

(** References to CallAnalysis objects. *)
Definition ref := nat.
Definition heap := list analysis.

Definition get (h : heap) (r : ref) : analysis := nth r h A_ignore.
Definition alloc (h : heap) (a : analysis) : heap * ref := (h ++ [a], length h).
Fixpoint set_nth (n : nat) (a : analysis) (h : heap) : heap :=
  match n, h with
  | _, [] => []
  | O, _ :: t => a :: t
  | S n, x :: t => x :: set_nth n a t
  end.

(** Nodes hold a reference to their result, statespace.py 339. *)
Inductive rnode :=
| RStem                                                      (* 366-381 *)
| RLeaf (r : ref)                                            (* 412-422 *)
| RWorst (forced : option bool) (pos neg : rnode) (r : ref) (exh : bool)
| RPar (pos neg : rnode) (r : ref) (exh : bool)
| RDet (child : rnode) (r : ref) (exh : bool).

Definition r_exh (n : rnode) : bool :=
  match n with
  | RStem => false
  | RLeaf _ => true
  | RWorst _ _ _ _ x | RPar _ _ _ x | RDet _ _ x => x
  end.

(** get_result: a stem makes a new object each time, 374-375. *)
Definition r_get (h : heap) (n : rnode) : heap * ref :=
  match n with
  | RStem => alloc h A_unknown
  | RLeaf r | RWorst _ _ _ r _ | RPar _ _ r _ | RDet _ r _ => (h, r)
  end.

(** node_status, 405-410. *)
Definition r_status (h : heap) (n : rnode) : option status :=
  match n with
  | RStem => Some Unknown
  | RLeaf r | RWorst _ _ _ r _ | RPar _ _ r _ | RDet _ r _ => a_status (get h r)
  end.

(** merge_node_results, 585-613: one of the two objects, or a new one. *)
Definition r_merge (h : heap) (l : ref) (exhausted : bool) (n : rnode) : heap * ref * bool :=
  let '(h, r) := r_get h n in
  let exhausted := if r_exh n then exhausted else false in
  match a_status (get h l), a_status (get h r) with
  | None, _ => (h, r, exhausted)
  | _, None => (h, l, exhausted)
  | Some ls, Some rs =>
      let '(h, m) := alloc h (mkA (Some (status_min ls rs))
                                  (a_msgs (get h l) ++ a_msgs (get h r))
                                  (merge_fp (get h l) (get h r))) in
      (h, m, exhausted)
  end.

(** WorstResultNode.compute_result, 675-691. *)
Definition r_worst (h : heap) (f : option bool) (p q : rnode) : heap * ref * bool :=
  let exhausted := (r_exh p && r_exh q)
    || (match f with Some true => r_exh p | _ => false end)
    || (match f with Some false => r_exh q | _ => false end) in
  if status_eqb (r_status h p) (Some Refuted) || match f with Some true => true | _ => false end
  then let '(h, r) := r_get h p in (h, r, exhausted)
  else if status_eqb (r_status h q) (Some Refuted) || match f with Some false => true | _ => false end
  then let '(h, r) := r_get h q in (h, r, exhausted)
  else let '(h, l) := r_get h p in r_merge h l (r_exh p) q.

(** ParallelNode.compute_result, 556-572. *)
Definition r_par (h : heap) (p q : rnode) : heap * ref * bool :=
  if r_exh p && negb (status_eqb (r_status h p) (Some Unknown))
  then let '(h, r) := r_get h p in (h, r, true)
  else if r_exh q && negb (status_eqb (r_status h q) (Some Unknown))
  then let '(h, r) := r_get h q in (h, r, true)
  else let '(h, l) := r_get h p in r_merge h l (r_exh p && r_exh q) q.

Definition fp_eqb (a b : option (Z * Z)) : bool :=
  match a, b with
  | None, None => true
  | Some (x, y), Some (z, w) => ((x =? z) && (y =? w))%Z
  | _, _ => false
  end.
Fixpoint zs_eqb (a b : list Z) : bool :=
  match a, b with
  | [], [] => true
  | x :: a, y :: b => (x =? y)%Z && zs_eqb a b
  | _, _ => false
  end.
(** == on CallAnalysis (a dataclass), 144-149. *)
Definition a_eqb (a b : analysis) : bool :=
  status_eqb (a_status a) (a_status b) && zs_eqb (a_msgs a) (a_msgs b) && fp_eqb (a_fp a) (a_fp b).

(** update_result, 354-360: the stored object stays if nothing changed. *)
Definition r_update (h : heap) (old : ref) (oldx : bool) (new : ref) (newx : bool) : ref * bool :=
  if negb (Bool.eqb newx oldx) || negb (a_eqb (get h new) (get h old))
  then (new, newx) else (old, oldx).

(** One decision of a path: a WorstResultNode (with its forced_path if it has to be
    grown) or a ParallelNode, and the side taken; or a DetachedPathNode. *)
Inductive step := SWorst (forced : option bool) (side : bool) | SPar (side : bool) | SDet.

(** bubble_status, 1324-1334, for the path with these decisions from node [n] on:
    its analysis is the object [lf].  [None]: the path does not fit the tree
    (NotDeterministic). *)
Fixpoint r_bubble (h : heap) (lf : ref) (path : list step) (n : rnode) : option (heap * rnode) :=
  match path, n with
  | [], RStem => Some (h, RLeaf lf)
  | [], RLeaf _ => Some (h, RLeaf lf)
  | [], RWorst f p q _ _ => Some (h, RWorst f p q lf true)
  | [], RPar p q _ _ => Some (h, RPar p q lf true)
  | [], RDet c _ _ => Some (h, RDet c lf true)
  | SWorst f0 b :: path, n =>
      let go f p q r x :=
        match r_bubble h lf path (if b then p else q : rnode) with
        | None => None
        | Some (h, c) =>
            let p := if b then c else p in
            let q := if b then q else c in
            if (x : bool) then Some (h, RWorst f p q r x)
            else let '(h, r', x') := r_worst h f p q in
                 let '(r, x) := r_update h r x r' x' in Some (h, RWorst f p q r x)
        end in
      match n with
      | RStem => go f0 RStem RStem 0 false
      | RWorst f p q r x => go f p q r x
      | _ => None
      end
  | SPar b :: path, n =>
      let go p q r x :=
        match r_bubble h lf path (if b then p else q : rnode) with
        | None => None
        | Some (h, c) =>
            let p := if b then c else p in
            let q := if b then q else c in
            if (x : bool) then Some (h, RPar p q r x)
            else let '(h, r', x') := r_par h p q in
                 let '(r, x) := r_update h r x r' x' in Some (h, RPar p q r x)
        end in
      match n with
      | RStem => go RStem RStem 0 false
      | RPar p q r x => go p q r x
      | _ => None
      end
  | SDet :: path, n =>
      match n with
      | RStem => match r_bubble h lf path RStem with
                 | None => None
                 | Some (h, c) => let '(r, x) := r_update h 0 false lf true in
                                  Some (h, RDet c r x)
                 end
      | _ => None
      end
  end.

(** What a path contributes: its decisions, its analysis, and whether it called
    cap_result_at_unknown (status_cap, 788 and 1315-1318). *)
Record visit := mkVis { v_path : list step; v_res : analysis; v_cap : bool }.

Record rstate := mkR { r_heap : heap; r_root : rnode }.

(** Before the first path; object 0 is the class attribute
    SearchTreeNode.result, 339. *)
Definition r_start : rstate := mkR [A_ignore] RStem.

(** The object the root node holds. *)
Definition r_ref (n : rnode) : option ref :=
  match n with
  | RStem => None
  | RLeaf r | RWorst _ _ _ r _ | RPar _ _ r _ | RDet _ r _ => Some r
  end.

(** bubble_status, 1320-1347. The cap is applied to the object held by the first
    node of choices_made; if no choice was made it is not applied (1331-1332). *)
Definition r_visit (s : rstate) (v : visit) : option rstate :=
  let '(h, lf) := alloc (r_heap s) (v_res v) in
  match r_bubble h lf (v_path v) (r_root s) with
  | None => None
  | Some (h, n) =>
      match v_path v, r_ref n with
      | _ :: _, Some r =>
          match a_status (get h r) with
          | Some st =>
              if v_cap v
              then Some (mkR (set_nth r (mkA (Some (status_min st Unknown))
                                             (a_msgs (get h r)) (a_fp (get h r))) h) n)
              else Some (mkR h n)
          | None => Some (mkR h n)
          end
      | _, _ => Some (mkR h n)
      end
  end.

Fixpoint r_visits (s : rstate) (vs : list visit) : option rstate :=
  match vs with
  | [] => Some s
  | v :: vs => match r_visit s v with None => None | Some s => r_visits s vs end
  end.

(** search_root.child.get_result().verification_status, core.py 1352. *)
Definition final_status (s : rstate) : option status := r_status (r_heap s) (r_root s).
