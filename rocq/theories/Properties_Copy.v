(** Copies of arguments. *)
From Coq Require Import List Bool Arith ZArith Lia.
From Verif Require Import Copy_Model Copy_Spec Copy_Proofs Copy_Term.
Import ListNotations.

(** An instance with a list as attribute that contains the instance, a tuple that
    contains the list, and the tuple again; an atom twice; a symbolic list. *)
Definition sample : heap :=
  [(KInst 7 1 [1%Z], [4; 1]); (KLst, [0; 2; 2; 3]); (KTup, [4; 1]); (KTup, [4; 4]); (KAtom 5, []);
   (KSLst, [1; 4; 6]); (KSAtom 9, [])].
Lemma sample_wf : well_formed sample.
Proof.
  intros o k cs N. do 7 (destruct o as [|o]; [cbn in N; inversion N; subst; cbn; split;
    [intros c H; repeat (destruct H as [<-|H]; [lia|]); contradiction|try discriminate; try reflexivity]|]).
  destruct o; discriminate N.
Qed.
Definition sample_rank (o : nat) : nat := match o with 0 | 2 | 3 => 1 | 5 => 2 | _ => 0 end.
Lemma sample_grounded : forall md, grounded md sample.
Proof.
  intros md. exists sample_rank. intros o k cs a N D.
  do 7 (destruct o as [|o]; [cbn in N; inversion N; subst; destruct md; cbn in D;
    repeat (destruct D as [<-|D]; [cbn; lia|]); contradiction|]).
  destruct o; discriminate N.
Qed.
Lemma atom_ends : forall p x, walk sample 4 p = Some x -> x = 4.
Proof. intros [|i p] x H; [now inversion H|]. cbn in H. destruct i; discriminate H. Qed.
Lemma list_ends : forall n p x, length p <= n -> (walk sample 0 p = Some x \/ walk sample 1 p = Some x \/ walk sample 2 p = Some x \/ walk sample 3 p = Some x) -> x < 5.
Proof.
  induction n as [|n IH]; intros p x L H.
  - destruct p; [|cbn in L; lia]. cbn in H. destruct H as [H|[H|[H|H]]]; inversion H; lia.
  - destruct p as [|i p]; [cbn in H; destruct H as [H|[H|[H|H]]]; inversion H; lia|]. cbn in L.
    assert (A : walk sample 4 p = Some x -> x < 5) by (intros E; apply atom_ends in E; lia).
    assert (B : walk sample 0 p = Some x \/ walk sample 1 p = Some x \/ walk sample 2 p = Some x \/ walk sample 3 p = Some x -> x < 5) by (apply IH; lia).
    destruct H as [H|[H|[H|H]]]; cbn in H; do 5 (destruct i as [|i]; cbn in H; [try discriminate H; auto; apply B; auto|]); try discriminate H; destruct i; discriminate H.
Qed.
Lemma sample_makeable : forall md, makeable md sample.
Proof.
  intros md o k cs a N D [p W].
  do 5 (destruct o as [|o]; [cbn in N; inversion N; subst; destruct md; cbn in D;
    repeat (destruct D as [<-|D]; [apply atom_ends in W; discriminate W|]); contradiction|]).
  destruct o as [|o].
  - cbn in N. inversion N; subst. destruct md; cbn in D; [contradiction|contradiction|].
    destruct D as [<-|[<-|[<-|[]]]].
    + assert (5 < 5) by (apply (list_ends (length p) p); auto). lia.
    + apply atom_ends in W. discriminate W.
    + destruct p as [|i p]; [discriminate W|]. cbn in W. destruct i; discriminate W.
  - destruct o as [|o]; [cbn in N; inversion N; subst; destruct md; contradiction|]. destruct o; discriminate N.
Qed.

(** The copy has the shape of the original, cycles and all; two ways lead to one object
    in the copy exactly if they do in the original; the original stays as it is; and the
    two have nothing in common that can change. *)
Theorem copy_faithful_partial : forall md h fuel r h' r',
  well_formed h -> makeable md h -> r < length h -> deepcopy fuel md h r = Done (h', r') ->
  unchanged h h' /\ same_shape md h r h' r' /\ same_sharing h r h' r' /\ apart h h' r'.
Proof. intros. eapply deepcopy_ok; eassumption. Qed.
Example copy_faithful_example :
  well_formed sample /\ makeable Realize sample /\
  deepcopy 20 Realize sample 5 =
  Done (sample ++ [(KLst, [8; 9; 9; 3]); (KInst 7 1 [1%Z], [4; 7]); (KTup, [4; 7]); (KAtom 9, []); (KLst, [7; 4; 10])], 11).
Proof. split; [exact sample_wf|]. split; [apply sample_makeable|reflexivity]. Qed.
Print Assumptions copy_faithful_partial.

(** Whatever is done to the original afterwards, the copy stays as it is. *)
Theorem copy_isolated_partial : forall md h fuel r h' r' h'',
  well_formed h -> makeable md h -> r < length h -> deepcopy fuel md h r = Done (h', r') ->
  original_changed h h' h'' -> forall p,
  walk h'' r' p = walk h' r' p /\ forall c, walk h' r' p = Some c -> nth_error h'' c = nth_error h' c.
Proof.
  intros md h fuel r h' r' h'' W M L D O.
  destruct (deepcopy_ok md h W M fuel r h' r' L D) as (_ & Sh & _ & A).
  apply (apart_isolated h); [exact A| |exact O].
  intros p c E. specialize (Sh p). rewrite E in Sh. destruct (walk h r p); [|contradiction].
  destruct Sh as (k & cs & cs' & _ & N & _). apply nth_error_Some. congruence.
Qed.
Example copy_isolated_example : exists h' r',
  deepcopy 20 Regular sample 0 = Done (h', r') /\
  original_changed sample h' (change (change h' 1 (fun _ => (KLst, []))) 0 (fun _ => (KInst 7 1 [1%Z], [4; 4]))).
Proof.
  exists (sample ++ [(KInst 7 1 [1%Z], [4; 8]); (KLst, [7; 9; 9; 3]); (KTup, [4; 8])]), 7.
  split; [reflexivity|]. intros c k cs N F.
  destruct c as [|c]; [cbn in N; inversion N; subst; destruct F as [F|F]; [cbn in F; lia|discriminate]|].
  destruct c as [|c]; [cbn in N; inversion N; subst; destruct F as [F|F]; [cbn in F; lia|discriminate]|].
  exact N.
Qed.
Print Assumptions copy_isolated_partial.

(** Realized values have nothing symbolic in them. *)
Definition symbolic (k : kind) : bool := match k with KSAtom _ | KSLst | KSDct => true | _ => false end.
Theorem realized_concrete_partial : forall h fuel r h' r',
  well_formed h -> makeable Realize h -> r < length h -> deepcopy fuel Realize h r = Done (h', r') ->
  forall p c k cs, walk h' r' p = Some c -> nth_error h' c = Some (k, cs) -> symbolic k = false.
Proof.
  intros h fuel r h' r' W M L D p c k cs E N.
  destruct (deepcopy_ok Realize h W M fuel r h' r' L D) as (_ & Sh & _ & _).
  specialize (Sh p). rewrite E in Sh. destruct (walk h r p); [|contradiction].
  destruct Sh as (k0 & cs0 & cs' & _ & N' & _). rewrite N in N'. inversion N'; subst. now destruct k0.
Qed.
Print Assumptions realized_concrete_partial.

(** Copying ends, and only objects that cannot be copied make it fail, and only when no
    best effort is asked for. *)
Theorem copy_ends_partial : forall md h r, well_formed h -> grounded md h -> r < length h ->
  exists bound, forall fuel, bound <= fuel ->
  (exists h' r', deepcopy fuel md h r = Done (h', r')) \/
  (deepcopy fuel md h r = Fail CannotCopy /\ md = Regular /\ exists o v cs, nth_error h o = Some (KStuck v, cs)).
Proof.
  intros md h r W (rank & RK) L. destruct (deepcopy_ends md h W rank RK r L) as [b B]. exists b.
  intros fuel Lf. specialize (B fuel Lf). destruct (deepcopy fuel md h r) as [[h' r']|[]]; cbn in B.
  - left. eauto.
  - right. split; [reflexivity|exact B].
  - contradiction.
  - contradiction.
Qed.
Example copy_ends_example : grounded Realize sample /\ exists h' r', deepcopy 20 Realize sample 5 = Done (h', r').
Proof.
  split; [apply sample_grounded|].
  exists (sample ++ [(KLst, [8; 9; 9; 3]); (KInst 7 1 [1%Z], [4; 7]); (KTup, [4; 7]); (KAtom 9, []); (KLst, [7; 4; 10])]), 11.
  reflexivity.
Qed.
Print Assumptions copy_ends_partial.

(** An object that is reachable from what it is made of, like a set with an element that
    refers to the set, is copied twice. *)
Theorem copy_sharing_refuted : exists h r h' r' fuel,
  well_formed h /\ r < length h /\ deepcopy fuel Regular h r = Done (h', r') /\ ~ same_sharing h r h' r'.
Proof.
  exists [(KInst 0 1 [], [1]); (KInst 1 0 [0%Z], [0])], 0,
    [(KInst 0 1 [], [1]); (KInst 1 0 [0%Z], [0]); (KInst 1 0 [0%Z], [3]); (KInst 0 1 [], [2]); (KInst 0 1 [], [2])], 4, 10.
  split; [|split; [cbn; lia|split; [reflexivity|]]].
  - intros o k cs N. do 2 (destruct o as [|o]; [cbn in N; inversion N; subst; cbn; split;
      [intros c H; repeat (destruct H as [<-|H]; [lia|]); contradiction|discriminate]|]). destruct o; discriminate N.
  - intros Sh. destruct (Sh [] [0; 0]) as [F _]; [discriminate|discriminate|]. cbn in F. specialize (F eq_refl). discriminate F.
Qed.
Print Assumptions copy_sharing_refuted.

(** A symbolic list that has been put into itself cannot be realized. *)
Theorem realize_cycle_refuted : exists h r, well_formed h /\ r < length h /\ forall fuel, deepcopy fuel Realize h r = Fail TooDeep.
Proof.
  exists [(KSLst, [0])], 0. split; [|split; [cbn; lia|]].
  - intros o k cs N. destruct o as [|o]; [cbn in N; inversion N; subst; cbn; split; [intros c [<-|[]]; lia|discriminate]|].
    destruct o; discriminate N.
  - assert (H : forall fuel, copy fuel Realize (mkSt [(KSLst, [0])] []) 0 = Fail TooDeep).
    { induction fuel as [|fuel IH]; [reflexivity|]. cbn [copy memo find objects nth_error]. cbn [copy_all]. now rewrite IH. }
    intros fuel. unfold deepcopy. now rewrite H.
Qed.
Print Assumptions realize_cycle_refuted.
