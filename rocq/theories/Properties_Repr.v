(* C109, C110: the texts that describe inputs. *)
From Coq Require Import String.
From Coq Require Import ZArith List Bool Arith Lia.
From Verif Require Import Repr_Model Repr_Spec Repr_Proofs.
Import ListNotations.

(** C109.  The full claim: whatever the values, Python gets from their texts values that are
    alike, with the same aliases:

      forall h l, (every reference in h and l is in h) ->
        exists fuel ts vs h2, show fuel h [] l = Some ts /\ python ts = Some (vs, h2) /\ alike h l h2 vs

    Proved without cycles and one-item tuples, if only lists, tuples and sets have items or
    nothing is shared.  Refuted for the rest below. *)
Theorem shown_reads_back_partial : forall h rank l,
  acyclic h rank -> Forall (in_heap h) l -> no_single_tuples h ->
  only_sequences h \/ unshared h l ->
  exists fuel ts vs h2, show fuel h [] l = Some ts /\ python ts = Some (vs, h2) /\ alike h l h2 vs.
Proof.
  intros h rank l AC IH NT C.
  set (fuel := S (fold_right (fun v n => vrank rank v + n) 0 l)).
  assert (F : Forall (fun v => vrank rank v < fuel /\ in_heap h v) l).
  { apply Forall_forall. intros v I. split; [|rewrite Forall_forall in IH; auto]. unfold fuel. clear - I.
    induction l as [|w l IH]; [easy|]. cbn [fold_right]. destruct I as [->|I]; [lia|]. specialize (IH I). lia. }
  pose proof (proj2 (efr_total h rank AC fuel) l [] F) as T.
  destruct (efr_list fuel h [] l) as [[ts named]|] eqn:E; [|easy].
  destruct (shown_denotes _ _ _ _ _ _ AC NT E) as (vs & h2 & e & V & A).
  exists fuel, (cleanup ts), vs, h2. unfold show, python. rewrite E, V.
  rewrite (shown_grammatical _ _ _ _ _ _ AC NT C E). auto.
Qed.

(** What Python gets, if anything, is right whatever is shared: the only other outcome of an
    acyclic heap without one-item tuples is a syntax error. *)
Theorem shown_never_misread : forall h rank l fuel ts vs h2,
  acyclic h rank -> no_single_tuples h -> show fuel h [] l = Some ts -> python ts = Some (vs, h2) ->
  alike h l h2 vs.
Proof.
  intros h rank l fuel ts vs h2 AC NT Sh P. unfold show in Sh.
  destruct (efr_list fuel h [] l) as [[ts0 named]|] eqn:E; [|easy]. injection Sh as <-.
  destruct (shown_denotes _ _ _ _ _ _ AC NT E) as (vs' & h' & e & V & A).
  unfold python in P. rewrite V in P. destruct (forallb grammatical (cleanup ts0)); [|easy].
  injection P as <- <-. exact A.
Qed.

(** x = []; [x, x], x : the text is v1:=[v2:=[], v2] and so on *)
Definition shared : heap := [Obj KList []; Obj KTuple [VRef 0; VRef 0]; Obj KList [VRef 1; VAtom 7; VRef 1]].
Example shared_shown : show 9 shared [] [VRef 2; VRef 0] =
  Some [TNode KList [TAssign 1 (TNode KTuple [TAssign 2 (TNode KList []); TName 2]); TAtom 7; TName 1]; TName 2].
Proof. reflexivity. Qed.
Example shared_python :
  python [TNode KList [TAssign 1 (TNode KTuple [TAssign 2 (TNode KList []); TName 2]); TAtom 7; TName 1]; TName 2] =
  Some ([VRef 2; VRef 0], shared).
Proof. reflexivity. Qed.
Example shared_meets : acyclic shared (fun i => i) /\ Forall (in_heap shared) [VRef 2; VRef 0] /\
  no_single_tuples shared /\ only_sequences shared.
Proof.
  split; [|split; [|split]].
  - intros i k l j E I. destruct i as [|[|[|i]]]; [| | |destruct i; discriminate]; cbn in E; injection E as <- <-; cbn in I |- *;
      repeat (destruct I as [I|I]; [try injection I as <-; try discriminate; cbn; lia|]); easy.
  - repeat constructor; cbn; lia.
  - intros i v E. destruct i as [|[|[|i]]]; [| | |destruct i; discriminate]; cbn in E; discriminate.
  - intros i k l E. destruct i as [|[|[|i]]]; [| | |destruct i; discriminate]; cbn in E; injection E as <- <-; auto.
Qed.
(** and a dictionary of unshared lists *)
Example dict_shown : show 9 [Obj KDict [VAtom 1; VRef 1]; Obj KList [VAtom 2]] [] [VRef 0] =
  Some [TNode KDict [TAtom 1; TNode KList [TAtom 2]]] /\
  unshared [Obj KDict [VAtom 1; VRef 1]; Obj KList [VAtom 2]] [VRef 0].
Proof. split; [reflexivity|]. repeat constructor; cbn; intuition lia. Qed.

(** A shared object that is first seen as the value of a dictionary: {0: v1:=[], 1: v1} *)
Theorem shared_dict_value_refuted : exists h rank l ts,
  acyclic h rank /\ Forall (in_heap h) l /\ no_single_tuples h /\
  show 9 h [] l = Some ts /\ python ts = None.
Proof.
  exists [Obj KList []; Obj KDict [VAtom 0; VRef 0; VAtom 1; VRef 0]], (fun i => i), [VRef 1].
  eexists. repeat apply conj; [| | |reflexivity|reflexivity].
  - intros i k l j E I. destruct i as [|[|i]]; [| |destruct i; discriminate]; cbn in E; injection E as <- <-; cbn in I |- *;
      repeat (destruct I as [I|I]; [try injection I as <-; try discriminate; cbn; lia|]); easy.
  - repeat constructor; cbn; lia.
  - intros i v E. destruct i as [|[|i]]; [| |destruct i; discriminate]; cbn in E; discriminate.
Qed.
(** The same in an instance shown with keywords: Pair(x=v1:=Pair(...), y=v1) *)
Theorem shared_field_refuted : exists h rank l ts,
  acyclic h rank /\ Forall (in_heap h) l /\ no_single_tuples h /\
  show 9 h [] l = Some ts /\ python ts = None.
Proof.
  exists [Obj (KInst 0 [0; 1]) [VAtom 1; VAtom 2]; Obj (KInst 0 [0; 1]) [VRef 0; VRef 0]], (fun i => i), [VRef 1].
  eexists. repeat apply conj; [| | |reflexivity|reflexivity].
  - intros i k l j E I. destruct i as [|[|i]]; [| |destruct i; discriminate]; cbn in E; injection E as <- <-; cbn in I |- *;
      repeat (destruct I as [I|I]; [try injection I as <-; try discriminate; cbn; lia|]); easy.
  - repeat constructor; cbn; lia.
  - intros i v E. destruct i as [|[|i]]; [| |destruct i; discriminate]; cbn in E; discriminate.
Qed.
(** The tuple (7,), shown as (7), reads back as 7. *)
Theorem single_tuple_refuted : exists h l ts vs h2,
  Forall (in_heap h) l /\ unshared h l /\
  show 9 h [] l = Some ts /\ python ts = Some (vs, h2) /\ ~ alike h l h2 vs.
Proof.
  exists [Obj KTuple [VAtom 7]], [VRef 0]. do 3 eexists. repeat apply conj; [| |reflexivity|reflexivity|].
  - repeat constructor; cbn; lia.
  - repeat constructor; cbn; intuition lia.
  - intros (r & _ & _ & F & _). inversion F as [|? ? ? ? M]; subst. exact M.
Qed.
(** x = []; x.append(x): no stack is deep enough. *)
Theorem cyclic_refuted : exists h l, Forall (in_heap h) l /\ forall fuel, show fuel h [] l = None.
Proof.
  exists [Obj KList [VRef 0]], [VRef 0]. split; [repeat constructor; cbn; lia|].
  assert (G : forall fuel, efr fuel [Obj KList [VRef 0]] [] (VRef 0) = None).
  { induction fuel as [|fuel IH]; [reflexivity|]. rewrite efr_ref. cbn [mem existsb nth_error]. cbn [efr_list]. now rewrite IH. }
  intros fuel. unfold show. cbn [efr_list]. now rewrite G.
Qed.
(** The result's text follows that of the arguments with the names of the arguments' objects
    already given; an object of both (such as the empty tuple, of which there is one) has no
    text at all the second time. *)
Theorem result_text_refuted : exists h l result ts named,
  unshared h l /\ efr_list 9 h [] l = Some (ts, named) /\ show 9 h named [result] = Some [TBlank].
Proof.
  exists [Obj KTuple []], [VRef 0], (VRef 0). do 2 eexists. repeat apply conj; [|reflexivity|reflexivity].
  repeat constructor; cbn; intuition lia.
Qed.

(** C110.  The full claim: the text of a call passes the arguments described:

      forall ps bs, signature ps -> Forall2 fits ps bs -> (the keys of **kwargs are different and
        not names of parameters) -> call ps (format_boundargs ps bs) = Some (map Some bs)

    Proved if these keys are identifiers, and unless *args follow a parameter with a default. *)
Theorem call_text_binds_partial : forall A (ps : list param) (bs : list (bound A)),
  signature ps -> Forall2 fits ps bs -> plain_keys ps bs -> ~ default_and_more ps bs ->
  call ps (format_boundargs ps bs) = Some (map Some bs).
Proof. intros. now apply call_format. Qed.

Ltac sig := split; [cbn; repeat constructor; cbn; intuition discriminate|split; [repeat constructor|
  cbn; repeat split; repeat constructor; cbn; intros; solve [lia|discriminate|reflexivity|assumption]]].
(** def f(a, /, b, c=..., *, d, **e) *)
Definition many_kinds : list param :=
  [Param "a" PosOnly false; Param "b" PosKw false; Param "c" PosKw true; Param "rest" VarPos false;
   Param "d" KwOnly false; Param "e" VarKw false].
Definition many_values : list (bound Z) := [One 1; One 2; One 3; Many []; One 4; Named [("a", 5); ("g", 6)]]%Z%string.
Example many_meets : signature many_kinds /\ Forall2 fits many_kinds many_values /\
  plain_keys many_kinds many_values /\ ~ default_and_more many_kinds many_values.
Proof.
  split; [|split; [|split]].
  - sig.
  - repeat constructor.
  - intros l I. cbn in I. repeat (destruct I as [I|I]; [try discriminate|]); [|easy]. injection I as <-.
    split; [repeat constructor; cbn; intuition discriminate|].
    intros n I. cbn in I. destruct I as [<-|[<-|[]]]; (split; [reflexivity|]);
      intros p P; cbn in P; repeat (destruct P as [<-|P]; [cbn; intros; try discriminate; split; discriminate|]); easy.
  - intros (_ & v & l & I). cbn in I. repeat (destruct I as [I|I]; [discriminate|]). easy.
Qed.
Example many_shown : format_boundargs many_kinds many_values =
  [Pos 1; Pos 2; Kw "c" 3; Kw "d" 4; Kw "a" 5; Kw "g" 6]%Z%string.
Proof. reflexivity. Qed.

(** def f(x=0, *rest), called with 1 and 2: f(x=1, 2) *)
Theorem default_then_args_refuted : exists (ps : list param) (bs : list (bound Z)),
  signature ps /\ Forall2 fits ps bs /\ plain_keys ps bs /\ call ps (format_boundargs ps bs) = None.
Proof.
  exists [Param "x" PosKw true; Param "rest" VarPos false], [One 1%Z; Many [2%Z]].
  split; [|split; [|split]]; [| | |reflexivity].
  - sig.
  - repeat constructor.
  - intros l I. cbn in I. repeat (destruct I as [I|I]; [discriminate|]). easy.
Qed.
(** A key with a blank in it, as in f(a b=1) *)
Theorem kwargs_key_refuted : exists (ps : list param) (bs : list (bound Z)) l,
  signature ps /\ Forall2 fits ps bs /\ bs = [Named l] /\ NoDup (map fst l) /\
  (forall p, In p ps -> ~ In (p_name p) (map fst l)) /\ ~ default_and_more ps bs /\
  call ps (format_boundargs ps bs) = None.
Proof.
  exists [Param "kw" VarKw false], [Named [("a b", 1%Z)]]%string, [("a b", 1%Z)]%string.
  split; [|split; [|split; [|split; [|split; [|split]]]]]; [| | | | | |reflexivity].
  - sig.
  - repeat constructor.
  - reflexivity.
  - repeat constructor; cbn; intuition.
  - intros p [<-|[]]. cbn. intuition discriminate.
  - intros ((p & [<-|[]] & K & _) & _). discriminate.
Qed.

Print Assumptions shown_reads_back_partial.
Print Assumptions shown_never_misread.
Print Assumptions shared_dict_value_refuted.
Print Assumptions shared_field_refuted.
Print Assumptions single_tuple_refuted.
Print Assumptions cyclic_refuted.
Print Assumptions result_text_refuted.
Print Assumptions call_text_binds_partial.
Print Assumptions default_then_args_refuted.
Print Assumptions kwargs_key_refuted.
