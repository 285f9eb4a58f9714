(** C148: the calls that patches accept.  Model: [PatchSig_Model]; spec: [PatchSig_Spec]. *)
From Coq Require Import String List Bool Arith Lia.
Import ListNotations.
From Verif Require Import PatchSig_Model PatchSig_Spec.
Open Scope string_scope.
Open Scope nat_scope.

(** a check that one signature accepts all calls that another accepts *)
Definition takes (pat : sig) (k : string) (limit : option nat) : bool :=
  match index_of k (poskw pat) with
  | Some i => match limit with Some j => j <=? length (posonly pat) + i | None => false end
  | None => named k (kwonly pat) || varkw pat
  end.
Fixpoint numbered (i : nat) (l : list (string * bool)) : list (nat * (string * bool)) :=
  match l with [] => [] | x :: l => (i, x) :: numbered (S i) l end.
(** at least so many positional arguments are needed *)
Fixpoint forced (l : list (string * bool)) : nat :=
  match l with [] => 0 | (_, true) :: l => S (forced l) | (_, false) :: l => 0 end.
Definition forces (nat_ : sig) (p : nat * (string * bool)) : bool :=
  let '(i, (k, r)) := p in
  negb r || (i <? forced (posonly nat_)) ||
  existsb (fun q => let '(j, (k', r')) := q in r' && String.eqb k' k && (i <=? j)) (numbered (length (posonly nat_)) (poskw nat_)).
Definition subsumes (nat_ pat : sig) : bool :=
  (varargs pat || (negb (varargs nat_) && (length (posonly nat_) + length (poskw nat_) <=? length (posonly pat) + length (poskw pat)))) &&
  forallb (fun p => takes pat (fst (snd p)) (Some (fst p))) (numbered (length (posonly nat_)) (poskw nat_)) &&
  forallb (fun p => takes pat (fst p) (if varargs nat_ then None else Some (length (posonly nat_) + length (poskw nat_)))) (kwonly nat_) &&
  (negb (varkw nat_) || (varkw pat && match poskw pat with [] => true | _ => false end)) &&
  forallb (fun p => negb (snd (snd p)) || (fst p <? forced (posonly nat_))) (numbered 0 (posonly pat)) &&
  forallb (forces nat_) (numbered (length (posonly pat)) (poskw pat)) &&
  forallb (fun p => negb (snd p)) (kwonly pat).

Lemma numbered_nth l : forall b i x, nth_error l i = Some x -> In (b + i, x) (numbered b l).
Proof.
  induction l as [|y l IH]; intros b i x H; [now destruct i|]. destruct i as [|i]; cbn in H |- *.
  - injection H as ->. left. f_equal. lia.
  - right. replace (b + S i) with (S b + i) by lia. now apply IH.
Qed.
Lemma numbered_in l : forall b n x, In (n, x) (numbered b l) -> exists i, n = b + i /\ nth_error l i = Some x.
Proof.
  induction l as [|y l IH]; intros b n x; [intros []|]. intros [H|H].
  - injection H as <- <-. exists 0. split; [lia|reflexivity].
  - apply IH in H as (i & -> & H). exists (S i). split; [lia|exact H].
Qed.
Lemma index_nth k l i : index_of k l = Some i -> exists r, nth_error l i = Some (k, r).
Proof.
  revert i. induction l as [|[n r] l IH]; intros i; [discriminate|]. cbn. destruct (String.eqb_spec n k) as [->|].
  - intros H. injection H as <-. now exists r.
  - destruct (index_of k l) as [j|]; [|discriminate]. intros H. injection H as <-. now apply IH.
Qed.
Lemma forced_ok l n : (forall i k, nth_error l i = Some (k, true) -> i < n) -> forced l <= n.
Proof.
  revert n. induction l as [|[k [|]] l IH]; intros n H; cbn; [lia| |lia]. pose proof (H 0 k eq_refl). destruct n as [|n]; [lia|].
  apply le_n_S, IH. intros i k' E. specialize (H (S i) k' E). lia.
Qed.
Lemma subsumes_ok nat_ pat : subsumes nat_ pat = true -> forall c, accepts nat_ c -> accepts pat c.
Proof.
  unfold subsumes. intros S c (A1 & A2 & A3 & A4 & A5). apply andb_true_iff in S as [S S7]. apply andb_true_iff in S as [S S6]. apply andb_true_iff in S as [S S5].
  apply andb_true_iff in S as [S S4]. apply andb_true_iff in S as [S S3]. apply andb_true_iff in S as [S1 S2].
  rewrite forallb_forall in S2, S3, S5, S6, S7. pose proof (forced_ok _ _ A3) as FO.
  split; [|split; [|split; [|split]]].
  - apply orb_true_iff in S1 as [S1|S1]; [now left|]. apply andb_true_iff in S1 as [S1 L]. apply Nat.leb_le in L. apply negb_true_iff in S1.
    destruct A1 as [A1|A1]; [congruence|]. right. lia.
  - intros k K. specialize (A2 k K). destruct (index_of k (poskw nat_)) as [i|] eqn:E.
    + destruct (index_nth _ _ _ E) as [r N]. apply (numbered_nth _ (length (posonly nat_))) in N. apply S2 in N. cbn [fst snd] in N. unfold takes in N.
      destruct (index_of k (poskw pat)); [apply Nat.leb_le in N; lia|]. now apply orb_true_iff.
    + destruct A2 as [A2|A2].
      * unfold named in A2. apply existsb_exists in A2 as ([n r] & I & Q). cbn in Q. apply String.eqb_eq in Q. subst n. apply S3 in I. cbn [fst] in I. unfold takes in I.
        destruct (index_of k (poskw pat)); [|now apply orb_true_iff]. destruct (varargs nat_); [discriminate|]. apply Nat.leb_le in I.
        destruct A1 as [A1|A1]; [discriminate|]. lia.
      * rewrite A2 in S4. cbn in S4. apply andb_true_iff in S4 as [S4 Q]. destruct (poskw pat); [|discriminate]. now right.
  - intros i k N. apply (numbered_nth _ 0) in N. apply S5 in N. cbn [fst snd negb orb] in N. apply Nat.ltb_lt in N. lia.
  - intros i k N. apply (numbered_nth _ (length (posonly pat))) in N. apply S6 in N. unfold forces in N. cbn [negb orb] in N.
    apply orb_true_iff in N as [N|N]; [apply Nat.ltb_lt in N; left; lia|]. apply existsb_exists in N as ([j [k' r']] & I & Q).
    apply andb_true_iff in Q as [Q L]. apply andb_true_iff in Q as [-> Q]. apply String.eqb_eq in Q. subst k'. apply Nat.leb_le in L.
    apply numbered_in in I as (m & -> & I). destruct (A4 m k I) as [B|B]; [left; lia|now right].
  - intros k I. apply S7 in I. discriminate.
Qed.

Definition kept (e : string * sig) : bool :=
  existsb (String.eqb (fst e)) with_lost_keywords || match sig_of (fst e) native_sigs with Some n => subsumes n (snd e) | None => false end.
Lemma sig_of_in f l s : sig_of f l = Some s -> In (f, s) l.
Proof.
  induction l as [|[n s'] l IH]; [discriminate|]. cbn. destruct (String.eqb_spec n f) as [->|]; [|intros H; right; now apply IH].
  intros H. injection H as <-. now left.
Qed.
(** C148, partial.  Every call of a patched built-in function that CPython accepts, with whatever number of positional
    arguments and whatever keywords, is accepted by its patch.
    Missing: functions whose patches have lost keywords; refuted below. *)
Theorem C148_accepted_partial (f : string) (native patch : sig) (c : call) :
  sig_of f native_sigs = Some native -> sig_of f patch_sigs = Some patch -> ~ In f with_lost_keywords ->
  accepts native c -> accepts patch c.
Proof.
  intros N P L. apply subsumes_ok.
  assert (K : forallb kept patch_sigs = true) by reflexivity. rewrite forallb_forall in K. specialize (K (f, patch) (sig_of_in _ _ _ P)).
  unfold kept in K. cbn [fst snd] in K. rewrite N in K. apply orb_true_iff in K as [K|K]; [|exact K].
  apply existsb_exists in K as (x & I & Q). apply String.eqb_eq in Q. now subst x.
Qed.
Print Assumptions C148_accepted_partial.
(** sorted(l, key=f); every patch has an original *)
Example C148_accepted_partial_witness :
  (exists n p, sig_of "sorted" native_sigs = Some n /\ sig_of "sorted" patch_sigs = Some p /\ accepts n (Call 1 ["key"])) /\
  forallb (fun e => match sig_of (fst e) native_sigs with Some _ => true | None => false end) patch_sigs = true.
Proof.
  split; [|reflexivity]. do 2 eexists. split; [reflexivity|]. split; [reflexivity|]. repeat split.
  - right. cbn. lia.
  - intros k [<-|[]]. cbn. now left.
  - intros [|[|i]] k H; cbn in H; [cbn; lia|discriminate|discriminate].
  - intros i k H. now destruct i.
  - intros k [H|[H|[]]]; discriminate.
Qed.
(** C148.  Without keywords, all patches accept the calls that CPython accepts. *)
Definition positional_part (s : sig) : sig := Sig (posonly s ++ poskw s) [] [] (varargs s) false.
Theorem C148_positional (f : string) (native patch : sig) (n : nat) :
  sig_of f native_sigs = Some native -> sig_of f patch_sigs = Some patch -> accepts native (Call n []) -> accepts patch (Call n []).
Proof.
  intros N P (A1 & _ & A3 & A4 & A5). apply (subsumes_ok (positional_part native)).
  - assert (K : forallb (fun e => match sig_of (fst e) native_sigs with Some m => subsumes (positional_part m) (snd e) | None => false end) patch_sigs = true) by reflexivity.
    rewrite forallb_forall in K. specialize (K (f, patch) (sig_of_in _ _ _ P)). cbn [fst snd] in K. now rewrite N in K.
  - unfold accepts, positional_part. cbn [posonly poskw kwonly varargs varkw positional keywords length] in *. rewrite app_length.
    split; [destruct A1; [now left|right; lia]|]. split; [intros k []|]. split; [|split; [intros i k H; now destruct i|intros k []]].
    intros i k H. destruct (Nat.lt_ge_cases i (length (posonly native))) as [L|L].
    + rewrite nth_error_app1 in H by exact L. now apply (A3 i k).
    + rewrite nth_error_app2 in H by exact L. destruct (A4 _ _ H) as [B|[]]. lia.
Qed.
Print Assumptions C148_positional.
Example C148_positional_witness : exists n, sig_of "str" native_sigs = Some n /\ accepts n (Call 2 []).
Proof.
  eexists. split; [reflexivity|]. repeat split.
  - right. cbn. lia.
  - intros k [].
  - intros i k H. now destruct i.
  - intros [|[|[|[|i]]]] k H; cbn in H; discriminate.
  - intros k [].
Qed.

Ltac accepted := repeat split; [cbn; first [now left | right; lia]| | | |]; intros;
  repeat match goal with
  | H : In _ (keywords _) |- _ => cbn in H
  | H : In _ (kwonly _) |- _ => cbn in H; try (destruct H as [H|[]]; discriminate H)
  | H : In _ (_ :: _) |- _ => destruct H as [<-|H]
  | H : False |- _ => destruct H
  | H : _ = _ \/ False |- _ => destruct H as [<-|[]]
  | H : nth_error _ ?i = Some _ |- _ => destruct i; cbn in H; try discriminate
  end; try match goal with H : Some _ = Some _ |- _ => injection H as <- end; cbn; try lia; auto; try (now left).
(** C148, violated.  str(b, encoding="utf-8"), bytes(s, encoding="utf-8"), bytearray(s, encoding="utf-8"),
    int.from_bytes(bytes=b), memoryview(object=b) and type(name, bases, ns, option=1) are accepted by CPython; under analysis they
    raise TypeError. *)
Theorem C148_keywords_refuted : forall f c, In (f, c)
  [("str", Call 1 ["encoding"]); ("bytes", Call 1 ["encoding"]); ("bytearray", Call 1 ["encoding"]);
   ("int.from_bytes", Call 0 ["bytes"]); ("memoryview", Call 0 ["object"]); ("type", Call 3 ["option"])] ->
  exists n p, sig_of f native_sigs = Some n /\ sig_of f patch_sigs = Some p /\ accepts n c /\ ~ accepts p c.
Proof.
  intros f c H. repeat destruct H as [H|H]; try (injection H as <- <-); [..|destruct H];
    (do 2 eexists; split; [reflexivity|]; split; [reflexivity|]; split;
     [accepted
     |intros (_ & A & _); specialize (A _ (or_introl eq_refl)); cbn in A; destruct A; discriminate]).
Qed.
Print Assumptions C148_keywords_refuted.
(** C148, violated.  dict(d, arg=1) puts the key "arg" into the new dict; under analysis it raises TypeError. *)
Theorem C148_dict_refuted : exists n p, sig_of "dict" native_sigs = Some n /\ sig_of "dict" patch_sigs = Some p /\
  accepts n (Call 1 ["arg"]) /\ ~ accepts p (Call 1 ["arg"]).
Proof.
  do 2 eexists. split; [reflexivity|]. split; [reflexivity|]. split; [accepted|].
  intros (_ & A & _). specialize (A _ (or_introl eq_refl)). cbn in A. lia.
Qed.
Print Assumptions C148_dict_refuted.
(** C148, violated.  sorted(l, f) and d.get(k, default=v) raise TypeError in CPython; under analysis they are accepted, so
    that this error in a program is not found. *)
Theorem C148_refused_refuted : forall f c, In (f, c) [("sorted", Call 2 []); ("dict.get", Call 2 ["default"])] ->
  exists n p, sig_of f native_sigs = Some n /\ sig_of f patch_sigs = Some p /\ ~ accepts n c /\ accepts p c.
Proof.
  intros f c [H|[H|[]]]; injection H as <- <-; (do 2 eexists; split; [reflexivity|]; split; [reflexivity|]; split; [|accepted]).
  - intros ([A|A] & _); [discriminate|cbn in A; lia].
  - intros (_ & A & _). specialize (A _ (or_introl eq_refl)). cbn in A. destruct A; discriminate.
Qed.
Print Assumptions C148_refused_refuted.
