(* C127: elements of symbolic containers are kept as if they had always existed; copies of
   containers and the view of the arguments before the call share the elements. *)
From Coq Require Import ZArith List Bool Arith.
From Verif Require Import Heap_Model Heap_Spec Heap_Proofs.
Import ListNotations.

(** Elements that are made when they are first looked up behave as if there had been one for every
    reference from the beginning, and as if checkpoints copied them all: what is read and what is
    the same object.  Missing: the first look up of a reference through an older snapshot, which is
    refuted below. *)
Theorem elements_as_if_always_there_partial fresh p : proper fresh p empty [] -> run fresh p empty [] = eager p (start fresh) [].
Proof. intro P. apply refine; auto; [apply inv_start|constructor]. Qed.
Print Assumptions elements_as_if_always_there_partial.
(** Two references, a checkpoint, a change, and both views *)
Definition views : prog :=
  Find None 3 (Find None 4 (Checkpoint (Find None 3 (Write 2 7%Z (Find (Some 0) 3 (Find None 3
  (Same 0 3 (fun b1 => Same 2 4 (fun b2 => Same 0 1 (fun b3 => Read 3 (fun x => Read 4 (fun y =>
   Done (if b1 && b2 && negb b3 then 10 * x + y else 0)%Z)))))))))))).
Example views_example : proper (fun r => Z.of_nat r) views empty [] /\ run (fun r => Z.of_nat r) views empty [] = 37%Z.
Proof. split; [|reflexivity]. cbn. repeat split; auto with arith; discriminate. Qed.

(** The object that is made for the first look up through an older snapshot is the one of the last
    heap: a change of the one is seen in the other. *)
Definition older_first : prog := Checkpoint (Find (Some 0) 3 (Find None 3 (Write 1 7%Z (Read 0 Done)))).
Theorem older_snapshot_refuted : exists fresh, run fresh older_first empty [] = 7%Z /\ eager older_first (start fresh) [] = 0%Z.
Proof. now exists (fun _ => 0%Z). Qed.
Print Assumptions older_snapshot_refuted.

(** A call that uses its argument only, without copying it, is as in Python: elements that are
    the same stay the same, others are not affected. *)
Theorem call_with_elements_partial fresh p argument : alone p 0 -> attempt fresh p argument = pycall fresh p argument.
Proof. apply alone_ok. Qed.
Print Assumptions call_with_elements_partial.
(** The argument is [a, b, a]: a change of the first element is seen in the third *)
Definition aliases : cprog := CGet 1 0 (CGet 1 1 (CGet 1 2 (CWrite 0 7%Z (CRead 1 (fun x => CRead 2 (fun y => CDone (10 * x + y)%Z)))))).
Example aliases_example : alone aliases 0 /\ attempt (fun r => Z.of_nat r) aliases [3; 4; 3] = 47%Z.
Proof. split; [cbn; repeat split; auto|reflexivity]. Qed.

(** A call that changes no element may copy its argument and look at it as it was.  Missing:
    changes, refuted below. *)
Theorem call_without_changes_partial fresh p argument : readonly p 0 -> attempt fresh p argument = pycall fresh p argument.
Proof.
  intro R. unfold attempt, pycall. apply readonly_ok; auto. intros h r l H. cbn in H. destruct H as [<-|[<-|[]]]; intros [].
Qed.
Print Assumptions call_without_changes_partial.
Definition looks : cprog := CGet 0 0 (CCopy 1 (CGet 2 1 (CRead 0 (fun x => CRead 1 (fun y => CDone (10 * x + y)%Z))))).
Example looks_example : readonly looks 0 /\ attempt (fun r => Z.of_nat r) looks [3; 4; 3] = 34%Z.
Proof. split; [cbn; repeat split; auto|reflexivity]. Qed.

(** The argument as it was before the call shows the changes of its elements: [__old__.x[0].f]
    is [x[0].f], whatever the function does. *)
Definition changes : cprog := CGet 1 0 (CWrite 0 7%Z (CGet 0 0 (CRead 1 CDone))).
Theorem old_elements_refuted : exists fresh argument, attempt fresh changes argument = 7%Z /\ pycall fresh changes argument = 0%Z.
Proof. now exists (fun _ => 0%Z), [5]. Qed.
Print Assumptions old_elements_refuted.
(** In every call: the old view of an element is the element *)
Theorem old_elements_are_the_elements fresh argument i c :
  attempt fresh (CGet 1 i (CWrite 0 c (CGet 0 i (CRead 1 CDone)))) argument = c.
Proof.
  unfold attempt. cbn. unfold find_key_in_heap. cbn. rewrite Nat.eqb_refl. reflexivity.
Qed.
Print Assumptions old_elements_are_the_elements.
(** A deep copy that the function makes has the elements of its argument *)
Definition copies : cprog := CGet 1 0 (CCopy 1 (CGet 2 0 (CWrite 1 7%Z (CRead 0 CDone)))).
Theorem deep_copy_refuted : exists fresh argument, attempt fresh copies argument = 7%Z /\ pycall fresh copies argument = 0%Z.
Proof. now exists (fun _ => 0%Z), [5]. Qed.
Print Assumptions deep_copy_refuted.
