(** C170: builtins and special methods; C171: attributes by name. *)
From Coq Require Import ZArith List Bool Lia.
From Verif Require Import Py Special_Model Special_Spec.
Import ListNotations.
Open Scope Z_scope.

Lemma special_eqb_iff : forall a b, special_eqb a b = true <-> a = b.
Proof. intros [] []; cbn; split; congruence. Qed.
Lemma dict_get_none : forall d n, dict_get d n = None <-> ~ In n (map fst d).
Proof.
  induction d as [|[k a] d IH]; intro n; cbn [dict_get map fst In]; [tauto|].
  destruct (special_eqb k n) eqn:E.
  - apply special_eqb_iff in E. split; [discriminate|]. tauto.
  - rewrite IH. assert (k <> n). { intro X. apply special_eqb_iff in X. congruence. } tauto.
Qed.
Lemma dict_get_at : forall pre n a post, ~ In n (map fst pre) -> dict_get (pre ++ (n, a) :: post) n = Some a.
Proof.
  induction pre as [|[k b] pre IH]; intros n a post N; cbn [app dict_get].
  - destruct (special_eqb n n) eqn:E; [reflexivity|]. assert (special_eqb n n = true) by (apply special_eqb_iff; reflexivity). congruence.
  - destruct (special_eqb k n) eqn:E; [apply special_eqb_iff in E; exfalso; apply N; left; exact E|].
    apply IH. intro I. apply N. right. exact I.
Qed.
Lemma mro_get_finds : forall ds n a, finds ds n a -> mro_get ds n = Some a.
Proof.
  intros ds n a F. induction F as [n a pre post ds N|n a d ds N F IH]; cbn [mro_get].
  - rewrite dict_get_at by exact N. reflexivity.
  - apply dict_get_none in N. rewrite N. exact IH.
Qed.
Lemma mro_get_none : forall ds n, (forall d, In d ds -> ~ In n (map fst d)) -> mro_get ds n = None.
Proof.
  induction ds as [|d ds IH]; intros n N; [reflexivity|]. cbn [mro_get].
  assert (X : dict_get d n = None) by (apply dict_get_none, N; left; reflexivity). rewrite X.
  apply IH. intros e I. apply N. right. exact I.
Qed.

(** len: right for methods of the class whose result is an int that may be a length, or that
    raise; and TypeError without a method. *)
Definition a_length (r : rv) : Prop := exists z, r = RInt z /\ 0 <= z <= max_size.
Theorem C170_len_partial : forall o a, finds (mro o) SLen a -> ~ In SLen (map fst (inst o)) ->
  (forall r, bound_call a 0 = Ok r -> a_length r) ->
  m_len o = builtin_call len_result a 0.
Proof.
  intros o a F N L. unfold m_len, call_attr. apply dict_get_none in N. rewrite N, (mro_get_finds _ _ _ F).
  assert (X : forall b, bound_call a 0 = b -> b = builtin_call len_result a 0).
  { intros b <-. unfold builtin_call. destruct (bound_call a 0) as [r|e]; [|reflexivity].
    destruct (L r eq_refl) as (z & -> & B). cbn [len_result].
    destruct (Z.ltb_spec z 0); [lia|]. destruct (Z.ltb_spec max_size z); [lia|]. reflexivity. }
  destruct a; apply X; reflexivity.
Qed.
Print Assumptions C170_len_partial.
Theorem C170_len_missing : forall o, (forall d, In d (mro o) -> ~ In SLen (map fst d)) -> ~ In SLen (map fst (inst o)) ->
  m_len o = Err TypeError.
Proof.
  intros o N I. unfold m_len, call_attr. apply dict_get_none in I. rewrite I, (mro_get_none _ _ N). reflexivity.
Qed.
Print Assumptions C170_len_missing.
(** repr, str and format: right for functions that return strings or raise. *)
Definition plain (a : attr) : Prop := match a with AFn _ | ANone => True | _ => False end.
Definition m_text (n : special) (o : obj) : res rv :=
  match n with SRepr => m_repr o | SStr => m_str o | _ => m_format o end.
Definition text_args (n : special) : nat := match n with SFormat => 1 | _ => 0 end.
Theorem C170_text_partial : forall n o a, In n [SRepr; SStr; SFormat] -> finds (mro o) n a -> plain a ->
  (forall r, bound_call a (text_args n) = Ok r -> exists s, r = RStr s) ->
  m_text n o = builtin_call text_result a (text_args n).
Proof.
  intros n o a I F P HS. apply mro_get_finds in F.
  assert (X : m_text n o = call_raw a (text_args n)).
  { cbn [In] in I. destruct I as [<-|[<-|[<-|[]]]]; cbn [m_text text_args];
      [unfold m_repr|unfold m_str|unfold m_format]; unfold invoke_dunder; rewrite F; reflexivity. }
  rewrite X. unfold builtin_call. destruct a as [f|f|f|]; try destruct P; [|reflexivity].
  cbn [call_raw bound_call] in *. change (S (text_args n)) with (1 + text_args n)%nat.
  destruct (f (1 + text_args n)%nat) as [r|e]; [|reflexivity]. destruct (HS r eq_refl) as [s ->]. reflexivity.
Qed.
Print Assumptions C170_text_partial.
(** hash: right for functions that return an int of 64 bits other than -1, or raise, and for
    None. *)
Theorem C170_hash_partial : forall o a, finds (mro o) SHash a -> plain a ->
  (forall r, bound_call a 0 = Ok r -> exists z, r = RInt z /\ - 2 ^ 63 <= z < 2 ^ 63 /\ z <> -1) ->
  m_hash o = builtin_call hash_result a 0.
Proof.
  intros o a F P HS. apply mro_get_finds in F. unfold m_hash, is_hashable, invoke_dunder, builtin_call. rewrite F.
  destruct a as [f|f|f|]; try destruct P; [|reflexivity]. cbn [negb call_raw bound_call] in *.
  change (1 + 0)%nat with 1%nat in *. destruct (f 1%nat) as [r|e]; [|reflexivity].
  destruct (HS r eq_refl) as (z & -> & B & N). cbn [hash_result].
  destruct (Z.leb_spec (- 2 ^ 63) z); [|lia]. destruct (Z.ltb_spec z (2 ^ 63)); [|lia]. cbn [andb].
  unfold not_minus_one. destruct (Z.eqb_spec z (-1)); [lia|]. reflexivity.
Qed.
Print Assumptions C170_hash_partial.

Definition returns (r : rv) : attr := AFn (fun n => if (n =? 1)%nat then Ok r else Err TypeError).
Definition sample : obj :=
  Obj [[(SLen, returns (RInt 4)); (SRepr, returns (RStr [97]))]; [(SLen, returns (RInt 9)); (SHash, returns (RInt 5))]] [].
Example C170_example :
  m_len sample = Ok (RInt 4) /\ m_repr sample = Ok (RStr [97]) /\ m_hash sample = Ok (RInt 5) /\
  finds (mro sample) SHash (returns (RInt 5)) /\ finds (mro sample) SLen (returns (RInt 4)).
Proof.
  split; [reflexivity|]. split; [reflexivity|]. split; [reflexivity|]. split.
  - apply FNext; [cbn; intuition discriminate|].
    exact (FHere SHash _ [(SLen, returns (RInt 9))] [] [] ltac:(cbn; intuition discriminate)).
  - exact (FHere SLen _ [] [(SRepr, returns (RStr [97]))] _ ltac:(cbn; intuition)).
Qed.

(** Refuted: results are not checked, *)
Definition with_method (n : special) (a : attr) : obj := Obj [[(n, a)]] [].
Lemma with_finds : forall n a, finds (mro (with_method n a)) n a.
Proof. intros n a. exact (FHere n a [] [] [] (fun x => x)). Qed.
Theorem C170_result_refuted : exists a b c d,
  (m_len (with_method SLen a) = Ok (RInt (-1)) /\ builtin_call len_result a 0 = Err ValueError) /\
  (m_len (with_method SLen b) = Ok (RStr [97]) /\ builtin_call len_result b 0 = Err TypeError) /\
  (m_repr (with_method SRepr c) = Ok (RInt 3) /\ builtin_call text_result c 0 = Err TypeError) /\
  (m_hash (with_method SHash d) = Ok (RStr []) /\ builtin_call hash_result d 0 = Err TypeError).
Proof.
  exists (returns (RInt (-1))), (returns (RStr [97])), (returns (RInt 3)), (returns (RStr [])).
  split; [split; reflexivity|]. split; [split; reflexivity|]. split; split; reflexivity.
Qed.
Print Assumptions C170_result_refuted.
(** hashes are not reduced, *)
Theorem C170_hash_refuted : exists a b,
  (m_hash (with_method SHash a) = Ok (RInt (-1)) /\ builtin_call hash_result a 0 = Ok (RInt (-2))) /\
  (m_hash (with_method SHash b) = Ok (RInt (2 ^ 70)) /\ builtin_call hash_result b 0 = Ok (RInt 512)).
Proof. exists (returns (RInt (-1))), (returns (RInt (2 ^ 70))). split; split; reflexivity. Qed.
Print Assumptions C170_hash_refuted.
(** static and class methods are not bound, *)
Theorem C170_binding_refuted : exists a b s,
  (m_repr (with_method SRepr a) = Err TypeError /\ builtin_call text_result a 0 = Ok (RStr s)) /\
  (m_repr (with_method SRepr b) = Err TypeError /\ builtin_call text_result b 0 = Ok (RStr s)).
Proof.
  exists (AStatic (fun n => if (n =? 0)%nat then Ok (RStr [97]) else Err TypeError)),
         (AClass (fun n => if (n =? 1)%nat then Ok (RStr [97]) else Err TypeError)), [97].
  split; split; reflexivity.
Qed.
Print Assumptions C170_binding_refuted.
(** and len also takes a method of the instance. *)
Theorem C170_instance_refuted : exists o a b, finds (mro o) SLen a /\
  m_len o = Ok (RInt 7) /\ builtin_call len_result a 0 = Ok (RInt 4) /\
  m_len b = Ok (RInt 7) /\ (forall d, In d (mro b) -> ~ In SLen (map fst d)).
Proof.
  exists (Obj [[(SLen, returns (RInt 4))]] [(SLen, AFn (fun _ => Ok (RInt 7)))]), (returns (RInt 4)),
         (Obj [[]] [(SLen, AFn (fun _ => Ok (RInt 7)))]).
  split; [exact (FHere SLen _ [] [] [] (fun x => x))|]. split; [reflexivity|]. split; [reflexivity|].
  split; [reflexivity|]. intros d [<-|[]] [].
Qed.
Print Assumptions C170_instance_refuted.

(** *** Attributes by name.  The attributes of an object as a function *)
Definition stores (d : attrs) (f : list Z -> option Z) : Prop := forall s, attr_get d s = f s.
Lemma text_eqb_iff : forall a b, text_eqb a b = true <-> a = b.
Proof. intros a b. unfold text_eqb. destruct (list_eq_dec Z.eq_dec a b); split; congruence. Qed.
(** getattr and hasattr do with a symbolic name what they do with its value. *)
Theorem C171_get : forall d f n default, stores d f ->
  m_getattr d n default = match f (realized n) with Some v => Ok v | None => match default with Some v => Ok v | None => Err AttributeError end end /\
  m_hasattr d n = match f (realized n) with Some _ => true | None => false end.
Proof.
  intros d f n default S. unfold m_getattr, m_hasattr. rewrite (S (realized n)).
  destruct (f (realized n)); [split; reflexivity|]. destruct default; split; reflexivity.
Qed.
Print Assumptions C171_get.
(** The forks before that tell the names of attributes from each other and from the rest: a
    path is told whether the name is one, and which. *)
Theorem C171_forks : forall keys s,
  (forall k b, In (k, b) (fork_names keys s) -> b = true <-> s = k) /\
  ((exists k, In (k, true) (fork_names keys s)) <-> In s keys) /\
  (~ In s keys -> map fst (fork_names keys s) = keys).
Proof.
  induction keys as [|k keys IH]; intro s; cbn [fork_names].
  - split; [intros k b []|]. split; [split; [intros [k []]|intros []]|reflexivity].
  - destruct (IH s) as (A & B & C). destruct (text_eqb s k) eqn:E.
    + apply text_eqb_iff in E. subst k. split; [|split].
      * intros k b [X|[]]. injection X as <- <-. tauto.
      * split; [intros _; left; reflexivity|]. intros _. exists s. left. reflexivity.
      * intro N. exfalso. apply N. left. reflexivity.
    + assert (D : s <> k). { intro X. apply text_eqb_iff in X. congruence. } split; [|split].
      * intros j b [X|I]; [injection X as <- <-; split; [discriminate|congruence]|apply A, I].
      * cbn [In]. rewrite <- B. split.
        -- intros [j [X|I]]; [discriminate|right; exists j; exact I].
        -- intros [X|[j I]]; [congruence|exists j; right; exact I].
      * intro N. cbn [map fst]. rewrite C; [reflexivity|]. intro I. apply N. right. exact I.
Qed.
Print Assumptions C171_forks.
(** setattr with a native name sets that attribute and no other; *)
Theorem C171_set_partial : forall d f s v, stores d f -> exists d', m_setattr d (Native s) v = Ok d' /\
  stores d' (fun t => if list_eq_dec Z.eq_dec t s then Some v else f t).
Proof.
  intros d f s v S. exists (attr_set d s v). split; [reflexivity|]. intro t. rewrite <- (S t). clear S f.
  induction d as [|[k w] d IH]; cbn [attr_set attr_get].
  - unfold text_eqb. destruct (list_eq_dec Z.eq_dec s t), (list_eq_dec Z.eq_dec t s); congruence.
  - destruct (text_eqb k s) eqn:E; cbn [attr_get].
    + apply text_eqb_iff in E. subst k. unfold text_eqb.
      destruct (list_eq_dec Z.eq_dec s t), (list_eq_dec Z.eq_dec t s); congruence.
    + destruct (text_eqb k t) eqn:G; [|exact IH]. apply text_eqb_iff in G. subst k.
      destruct (list_eq_dec Z.eq_dec t s) as [X|X]; [|reflexivity]. apply text_eqb_iff in X. congruence.
Qed.
Print Assumptions C171_set_partial.
Example C171_example : m_setattr [([97], 1)] (Native [98]) 2 = Ok [([97], 1); ([98], 2)] /\
  m_getattr [([97], 1)] (Symbolic [97]) None = Ok 1 /\ fork_names [[98]; [97]; [99]] [97] = [([98], false); ([97], true)].
Proof. split; [reflexivity|]. split; reflexivity. Qed.
(** refuted with a symbolic one. *)
Theorem C171_set_refuted : exists d s v d', m_setattr d (Native s) v = Ok d' /\ m_setattr d (Symbolic s) v = Err TypeError.
Proof. exists [], [97], 1, [([97], 1)]. split; reflexivity. Qed.
Print Assumptions C171_set_refuted.
