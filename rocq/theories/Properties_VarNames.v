(** C166: the parts of the inputs of a function are independent of each other. *)
From Coq Require Import String Ascii List ZArith Bool Lia Decimal DecimalString DecimalNat.
From Verif Require Import VarNames_Model VarNames_Spec.
Import ListNotations.
Open Scope string_scope.
Open Scope list_scope.
Open Scope nat_scope.

Lemma sapp_assoc : forall a b c : string, ((a ++ b) ++ c)%string = (a ++ (b ++ c))%string.
Proof. induction a as [|x a IH]; intros; cbn; [reflexivity|]. now rewrite IH. Qed.
Lemma sapp_nil : forall a : string, (a ++ "")%string = a.
Proof. induction a as [|x a IH]; cbn; [reflexivity|]. now rewrite IH. Qed.
Lemma sapp_cancel : forall r a b : string, (r ++ a)%string = (r ++ b)%string -> a = b.
Proof. induction r as [|x r IH]; cbn; intros a b E; [exact E|]. injection E as E. now apply IH. Qed.
Lemma sapp_split : forall a b x y : string, (a ++ x)%string = (b ++ y)%string -> starts_with a b \/ starts_with b a.
Proof.
  induction a as [|c a IH]; intros b x y E; [left; exists b; reflexivity|].
  destruct b as [|e b]; [right; exists (String c a); reflexivity|].
  cbn in E. injection E as E1 E2. subst e. destruct (IH b x y E2) as [[q Q]|[q Q]].
  - left. exists q. cbn. now rewrite Q.
  - right. exists q. cbn. now rewrite Q.
Qed.

(** Decimal numbers end where the digits end. *)
Definition is_digit (c : ascii) : bool := let n := nat_of_ascii c in (48 <=? n) && (n <=? 57).
Fixpoint digits (s : string) : bool := match s with "" => true | String c r => is_digit c && digits r end.
Definition no_digit (s : string) : Prop := match s with "" => True | String c _ => is_digit c = false end.
Lemma digits_dec : forall n, digits (dec n) = true.
Proof.
  intro n. unfold dec. induction (Nat.to_uint n) as [|u IH|u IH|u IH|u IH|u IH|u IH|u IH|u IH|u IH|u IH];
  [reflexivity| | | | | | | | | |]; cbn [NilEmpty.string_of_uint digits]; exact IH.
Qed.
Lemma digits_split : forall a b p q, digits a = true -> digits b = true -> no_digit p -> no_digit q ->
  (a ++ p)%string = (b ++ q)%string -> a = b /\ p = q.
Proof.
  induction a as [|c a IH]; destruct b as [|e b]; intros p q A B P Q E; cbn in E.
  - auto.
  - subst p. cbn in P. cbn [digits] in B. rewrite P in B. discriminate.
  - subst q. cbn in Q. cbn [digits] in A. rewrite Q in A. discriminate.
  - injection E as E1 E2. subst e. cbn [digits] in A, B. apply andb_true_iff in A. apply andb_true_iff in B.
    destruct (IH b p q) as [X Y]; try tauto. subst. auto.
Qed.
Lemma dec_inj : forall n m, dec n = dec m -> n = m.
Proof.
  intros n m E. unfold dec in E. apply Unsigned.to_uint_inj.
  assert (X : Some (Nat.to_uint n) = Some (Nat.to_uint m)) by (rewrite <- !NilEmpty.usu, E; reflexivity).
  now injection X.
Qed.

Lemma NoDup_join : forall (a b : list string), NoDup a -> NoDup b -> (forall x, In x a -> In x b -> False) -> NoDup (a ++ b).
Proof.
  induction a as [|x a IH]; intros b A B D; [exact B|]. inversion A; subst. cbn. constructor.
  - rewrite in_app_iff. intros [X|X]; [contradiction|]. apply (D x); [now left|exact X].
  - apply IH; auto. intros y Y. apply D. now right.
Qed.

Lemma ty_nested : forall P : ty -> Prop,
  P TInt -> P TBool -> P TDate -> P TTime -> P TDatetime -> P TTimedelta -> P TRange ->
  (forall n, P (TBytes n)) -> P TArray ->
  (forall l, Forall P l -> P (TTuple l)) ->
  (forall l, Forall (fun kt => P (snd kt)) l -> P (TTyped l)) -> forall t, P t.
Proof.
  intros P H1 H2 H3 H4 H5 H6 H7 H8 H9 HT HD. fix F 1. intros [| | | | | | |n| |l|l].
  - exact H1. - exact H2. - exact H3. - exact H4. - exact H5. - exact H6. - exact H7. - apply H8. - exact H9.
  - apply HT. induction l as [|t l IH]; constructor; [apply F|exact IH].
  - apply HD. induction l as [|[k t] l IH]; constructor; [apply F|exact IH].
Qed.

(** The names of the variables of an input are distinct and continue its name, not by a digit. *)
Definition below (v : string) (n : string) : Prop := exists p, n = (v ++ p)%string /\ no_digit p.
Definition fine (v : string) (ns : list string) : Prop := NoDup ns /\ forall n, In n ns -> below v n.

Ltac distinct := repeat constructor; cbn; intros H; repeat (destruct H as [H|H]; [apply sapp_cancel in H; discriminate H|]); exact H.
Ltac continue := intros m H; cbn in H;
  repeat (destruct H as [H|H]; [subst m; eexists; split; [reflexivity|reflexivity]|]); destruct H.

Lemma items_names : forall n v i, NoDup (map name (items v i n))
  /\ forall m, In m (map name (items v i n)) -> exists j, i <= j /\ m = (v ++ "@" ++ dec j)%string.
Proof.
  induction n as [|n IH]; intros v i; cbn [items map].
  - split; [constructor|intros m []].
  - destruct (IH v (S i)) as [N A]. split.
    + constructor; [|exact N]. intro I. destruct (A _ I) as (j & L & E). cbn [name int] in E.
      apply sapp_cancel in E. cbn in E. injection E as E. apply dec_inj in E. lia.
    + intros m [M|M]; [exists i; split; [lia|now subst]|]. destruct (A m M) as (j & L & E). exists j. split; [lia|exact E].
Qed.

Lemma create_fine : forall t, good t -> forall v k, fine v (map name (fst (create t v k))).
Proof.
  induction t using ty_nested; intros G v k.
  - cbn. split; [repeat constructor; auto|]. intros m [M|[]]. subst. exists "". now rewrite sapp_nil.
  - cbn. split; [repeat constructor; auto|]. intros m [M|[]]. subst. exists "". now rewrite sapp_nil.
  - cbn. split; [distinct|continue].
  - cbn. split; [distinct|continue].
  - cbn. split; [distinct|continue].
  - cbn. split; [distinct|continue].
  - cbn -[hex]. split; [distinct|continue].
  - cbn [create fst map]. destruct (items_names n v 0) as [N A]. split.
    + constructor; [|exact N]. intro I. destruct (A _ I) as (j & _ & E). cbn [name int] in E.
      apply sapp_cancel in E. discriminate.
    + intros m [M|M]; [subst m; eexists; split; reflexivity|]. destruct (A m M) as (j & _ & E). subst.
      eexists; split; reflexivity.
  - cbn -[hex]. split; [distinct|continue].
  - cbn [create].
    assert (K : forall i k, NoDup (map name (fst ((fix go (l : list ty) (i k : nat) {struct l} : list var * nat :=
         match l with
         | [] => ([], k)
         | t :: r =>
             let (a, k1) := create t (v ++ "_at_" ++ dec i) k in
             let (b, k2) := go r (S i) k1 in
             (a ++ b, k2)
         end) l i k)))
      /\ forall m, In m (map name (fst ((fix go (l : list ty) (i k : nat) {struct l} : list var * nat :=
         match l with
         | [] => ([], k)
         | t :: r =>
             let (a, k1) := create t (v ++ "_at_" ++ dec i) k in
             let (b, k2) := go r (S i) k1 in
             (a ++ b, k2)
         end) l i k))) -> exists j p, i <= j /\ no_digit p /\ m = (v ++ "_at_" ++ dec j ++ p)%string).
    { clear k. cbn [good] in G. induction l as [|t l IHl]; intros i k.
      - cbn. split; [constructor|intros m []].
      - inversion H as [|? ? Ht Hl]; subst. cbn [fold_right] in G. destruct G as [Gt Gl].
        specialize (Ht Gt (v ++ "_at_" ++ dec i)%string k).
        destruct (create t (v ++ "_at_" ++ dec i) k) as [a k1]. cbn [fst] in Ht. destruct Ht as [Na Ba].
        specialize (IHl Hl Gl (S i) k1).
        destruct ((fix go (l0 : list ty) (i0 k0 : nat) {struct l0} : list var * nat := _) l (S i) k1) as [b k2].
        cbn [fst] in *. destruct IHl as [Nb Bb]. rewrite map_app.
        assert (Ba' : forall m, In m (map name a) -> exists p, no_digit p /\ m = (v ++ "_at_" ++ dec i ++ p)%string).
        { intros m M. destruct (Ba m M) as (p & E & D). exists p. split; [exact D|]. subst m. now rewrite !sapp_assoc. }
        split.
        + apply NoDup_join; auto. intros x X Y. destruct (Ba' x X) as (p & Dp & Ep).
          destruct (Bb x Y) as (j & q & L & Dq & Eq). rewrite Ep in Eq. apply sapp_cancel in Eq. apply sapp_cancel in Eq.
          apply digits_split in Eq; auto using digits_dec. destruct Eq as [Eq _]. apply dec_inj in Eq. lia.
        + intros m M. apply in_app_iff in M. destruct M as [M|M].
          * destruct (Ba' m M) as (p & Dp & Ep). exists i, p. auto.
          * destruct (Bb m M) as (j & q & L & Dq & Eq). exists j, q. split; [lia|auto]. }
    destruct (K 0 k) as [N A]. split; [exact N|]. intros m M. destruct (A m M) as (j & p & _ & _ & E).
    exists ("_at_" ++ dec j ++ p)%string. split; [exact E|reflexivity].
  - cbn [create].
    assert (K : forall k, NoDup (map name (fst ((fix go (l : list (string * ty)) (k : nat) {struct l} : list var * nat :=
         match l with
         | [] => ([], k)
         | kt :: r =>
             let (a, k1) := create (snd kt) (v ++ "." ++ fst kt) k in
             let (b, k2) := go r k1 in
             (a ++ b, k2)
         end) l k)))
      /\ forall m, In m (map name (fst ((fix go (l : list (string * ty)) (k : nat) {struct l} : list var * nat :=
         match l with
         | [] => ([], k)
         | kt :: r =>
             let (a, k1) := create (snd kt) (v ++ "." ++ fst kt) k in
             let (b, k2) := go r k1 in
             (a ++ b, k2)
         end) l k))) -> exists key p, In key (map fst l) /\ m = (v ++ "." ++ key ++ p)%string).
    { clear k. cbn [good] in G. destruct G as [GP G]. induction l as [|[key t] l IHl]; intro k.
      - cbn. split; [constructor|intros m []].
      - inversion H as [|? ? Ht Hl]; subst. cbn [fold_right snd] in G. destruct G as [Gt Gl].
        cbn [map fst] in GP. inversion GP as [|? ? GP1 GP2]; subst. cbn [snd fst] in *.
        specialize (Ht Gt (v ++ "." ++ key)%string k).
        destruct (create t (v ++ "." ++ key) k) as [a k1]. cbn [fst] in Ht. destruct Ht as [Na Ba].
        specialize (IHl Hl GP2 Gl k1).
        destruct ((fix go (l0 : list (string * ty)) (k0 : nat) {struct l0} : list var * nat := _) l k1) as [b k2].
        cbn [fst] in *. destruct IHl as [Nb Bb]. rewrite map_app.
        assert (Ba' : forall m, In m (map name a) -> exists p, m = (v ++ "." ++ key ++ p)%string).
        { intros m M. destruct (Ba m M) as (p & E & _). exists p. subst m. now rewrite !sapp_assoc. }
        split.
        + apply NoDup_join; auto. intros x X Y. destruct (Ba' x X) as (p & Ep).
          destruct (Bb x Y) as (key' & q & I & Eq). rewrite Ep in Eq. apply sapp_cancel in Eq. apply sapp_cancel in Eq.
          rewrite Forall_forall in GP1. destruct (GP1 key' I) as [A1 A2].
          destruct (sapp_split _ _ _ _ Eq); contradiction.
        + intros m M. apply in_app_iff in M. destruct M as [M|M].
          * destruct (Ba' m M) as (p & Ep). exists key, p. cbn. auto.
          * destruct (Bb m M) as (key' & q & I & Eq). exists key', q. cbn. auto. }
    destruct (K k) as [N A]. split; [exact N|]. intros m M. destruct (A m M) as (key & p & _ & E).
    exists ("." ++ key ++ p)%string. split; [exact E|reflexivity].
Qed.

(** What the solver is told of a variable allows every value of the part. *)
Definition allows (s : value_set) (v : var) : Prop := forall z, s z -> obeys z (told v).
Lemma items_allow : forall n v i, Forall2 allows (repeat (between 0 255) n) (items v i n).
Proof. induction n as [|n IH]; intros v i; cbn [repeat items]; constructor; auto. intros z H. exact H. Qed.
Lemma create_allows : forall t v k, Forall2 allows (parts t) (fst (create t v k)).
Proof.
  induction t using ty_nested; intros v k.
  1-7: cbn; repeat (constructor; [intros z Hz; try exact Hz; exact I|]); constructor.
  - cbn [parts create fst]. constructor; [intros z Hz; exact Hz|apply items_allow].
  - cbn; repeat (constructor; [intros z Hz; try exact Hz; exact I|]); constructor.
  - cbn [parts create]. generalize 0. revert k. induction H as [|t l Ht Hl IH]; intros k i.
    + constructor.
    + cbn [flat_map]. specialize (Ht (v ++ "_at_" ++ dec i)%string k).
      destruct (create t (v ++ "_at_" ++ dec i) k) as [a k1]. specialize (IH k1 (S i)).
      destruct ((fix go (l0 : list ty) (i0 k0 : nat) {struct l0} : list var * nat := _) l (S i) k1) as [b k2].
      cbn [fst] in *. now apply Forall2_app.
  - cbn [parts create]. revert k. induction H as [|[key t] l Ht Hl IH]; intros k.
    + constructor.
    + cbn [flat_map snd fst] in *. specialize (Ht (v ++ "." ++ key)%string k).
      destruct (create t (v ++ "." ++ key) k) as [a k1]. specialize (IH k1).
      destruct ((fix go (l0 : list (string * ty)) (k0 : nat) {struct l0} : list var * nat := _) l k1) as [b k2].
      cbn [fst] in *. now apply Forall2_app.
Qed.

(** Variables of distinct names are independent. *)
Lemma distinct_independent : forall vs sets, NoDup (map name vs) -> Forall2 allows sets vs -> independent vs sets.
Proof.
  induction vs as [|v vs IH]; intros sets N A values V.
  - inversion A; subst. inversion V; subst. exists (fun _ _ => 0%Z). split; [intros v []|reflexivity].
  - inversion A as [|s ? sets' ? As A']; subst. inversion V as [|? z ? values' Vs V']; subst.
    cbn [map] in N. inversion N as [|? ? Nv N']; subst.
    destruct (IH sets' N' A' values' V') as (env & O & R).
    assert (D : forall w, In w vs -> String.eqb (name w) (name v) = false).
    { intros w W. destruct (String.eqb_spec (name w) (name v)) as [E|E]; [|reflexivity].
      destruct Nv. rewrite <- E. now apply in_map. }
    exists (fun n s => if String.eqb n (name v) then z else env n s). split.
    + intros w [W|W].
      * subst w. unfold read. rewrite String.eqb_refl. now apply As.
      * unfold read. rewrite (D w W). now apply O.
    + cbn [map]. unfold read at 1. rewrite String.eqb_refl. f_equal. rewrite <- R.
      apply map_ext_in. intros w W. unfold read. now rewrite (D w W).
Qed.

(** The parts of an input are independent, whatever its type, if no key of a TypedDict in
    it continues another key.  Missing: other TypedDicts. *)
Theorem C166_input_partial : forall t, good t -> forall v k, independent (fst (create t v k)) (parts t).
Proof.
  intros t G v k. apply distinct_independent; [apply (create_fine t G)|apply create_allows].
Qed.
Print Assumptions C166_input_partial.

Lemma until_underscore : forall p q x y, has_underscore p = false -> has_underscore q = false ->
  (p ++ String "_" x)%string = (q ++ String "_" y)%string -> p = q.
Proof.
  induction p as [|c p IH]; destruct q as [|e q]; intros x y P Q E; cbn in E.
  - reflexivity.
  - injection E as E1 E2. subst e. discriminate Q.
  - injection E as E1 E2. subst c. discriminate P.
  - injection E as E1 E2. subst e. cbn [has_underscore] in P, Q. apply orb_false_iff in P. apply orb_false_iff in Q.
    f_equal. apply (IH q x y); tauto.
Qed.

(** The parts of all arguments of a function are independent, if in addition the names of
    its parameters have no underscore.  Missing: other names. *)
Theorem C166_arguments_partial : forall params k,
  NoDup (map fst params) ->
  (forall p t, In (p, t) params -> good t /\ has_underscore p = false) ->
  independent (fst (gen_args params k)) (flat_map (fun pt => parts (snd pt)) params).
Proof.
  intros params k N G. apply distinct_independent.
  - assert (K : NoDup (map name (fst (gen_args params k)))
      /\ forall m, In m (map name (fst (gen_args params k))) -> exists p x, In p (map fst params) /\ m = (p ++ String "_" x)%string).
    { revert k. induction params as [|[p t] r IH]; intro k; cbn [gen_args].
      - split; [constructor|intros m []].
      - cbn [uniq]. destruct (G p t (or_introl eq_refl)) as [Gt Up].
        pose proof (create_fine t Gt (p ++ ("_" ++ hex (S k))%string)%string (S k)) as F.
        destruct (create t (p ++ ("_" ++ hex (S k))%string) (S k)) as [a k1]. cbn [fst] in F. destruct F as [Na Ba].
        cbn [map fst] in N. inversion N as [|? ? Np Nr]; subst.
        assert (Gr : forall q u, In (q, u) r -> good u /\ has_underscore q = false) by (intros q u I; apply G; now right).
        specialize (IH Nr Gr k1). destruct (gen_args r k1) as [b k2]. cbn [fst] in *. destruct IH as [Nb Bb].
        rewrite map_app.
        assert (Ba' : forall m, In m (map name a) -> exists x, m = (p ++ String "_" x)%string).
        { intros m M. destruct (Ba m M) as (x & E & _). exists (hex (S k) ++ x)%string. subst m.
          now rewrite sapp_assoc. }
        split.
        + apply NoDup_join; auto. intros m X Y. destruct (Ba' m X) as (x & Ex).
          destruct (Bb m Y) as (q & y & I & Ey). rewrite Ex in Ey.
          apply in_map_iff in I. destruct I as ([q' u] & Eq & I). cbn in Eq. subst q'.
          destruct (Gr q u I) as [_ Uq]. apply until_underscore in Ey; auto. subst q.
          apply Np. apply in_map_iff. exists (p, u). auto.
        + intros m M. apply in_app_iff in M. destruct M as [M|M].
          * destruct (Ba' m M) as (x & Ex). exists p, x. cbn. auto.
          * destruct (Bb m M) as (q & y & I & Ey). exists q, y. cbn. auto. }
    apply K.
  - revert k. clear N G. induction params as [|[p t] r IH]; intro k; cbn [gen_args flat_map snd].
    + constructor.
    + cbn [uniq]. pose proof (create_allows t (p ++ ("_" ++ hex (S k))%string)%string (S k)) as A.
      destruct (create t (p ++ ("_" ++ hex (S k))%string) (S k)) as [a k1]. cbn [fst] in A.
      specialize (IH k1). destruct (gen_args r k1) as [b k2]. cbn [fst] in *. now apply Forall2_app.
Qed.
Print Assumptions C166_arguments_partial.

Definition meeting : ty := TTyped [("title", TBytes 2); ("when", TTuple [TDatetime; TTimedelta]); ("rooms", TArray)].
Example meeting_good : good meeting.
Proof.
  cbn. split; [|tauto]. repeat constructor; intros [q E]; discriminate E.
Qed.
Example meeting_names : map name (fst (gen_args [("m", meeting); ("n", TInt)] 1))
  = ["m_2.titlelen"; "m_2.title@0"; "m_2.title@1"; "m_2.when_at_0_ord"; "m_2.when_at_0_hour"; "m_2.when_at_0_min";
     "m_2.when_at_0_sec"; "m_2.when_at_0_usec"; "m_2.when_at_0_fold"; "m_2.when_at_1_usec"; "m_2.when_at_1_sec";
     "m_2.when_at_1_days"; "m_2.rooms_map_6"; "m_2.rooms_len_7"; "n_8"].
Proof. reflexivity. Qed.

(** A TypedDict with keys "start" (a time) and "start_hour" (an int): the int is always the
    hour of the time, so that 24 is never tried. *)
Theorem C166_typed_dict_refuted : exists t v k,
  (forall values, possible (fst (create t v k)) values -> nth 0 values 0%Z = nth 5 values 0%Z)
  /\ ~ independent (fst (create t v k)) (parts t).
Proof.
  exists (TTyped [("start", TTime); ("start_hour", TInt)]), "x_2", 2.
  assert (K : forall values, possible (fst (create (TTyped [("start", TTime); ("start_hour", TInt)]) "x_2" 2)) values ->
     nth 0 values 0%Z = nth 5 values 0%Z).
  { intros values (env & _ & R). rewrite <- R. reflexivity. }
  split; [exact K|]. intro Ind.
  specialize (K [1; 2; 3; 4; 0; 24]%Z). cbn in K. enough (1 = 24)%Z by lia. apply K. apply Ind.
  cbn. unfold between, every. repeat constructor; lia.
Qed.
Print Assumptions C166_typed_dict_refuted.

(** Likewise the key "datalen" beside the key "data": it is the length of the data. *)
Theorem C166_length_refuted : exists t v k,
  (forall values, possible (fst (create t v k)) values -> nth 0 values 0%Z = nth 1 values 0%Z)
  /\ ~ independent (fst (create t v k)) (parts t).
Proof.
  exists (TTyped [("data", TBytes 0); ("datalen", TInt)]), "x_2", 2.
  assert (K : forall values, possible (fst (create (TTyped [("data", TBytes 0); ("datalen", TInt)]) "x_2" 2)) values ->
     nth 0 values 0%Z = nth 1 values 0%Z).
  { intros values (env & _ & R). rewrite <- R. reflexivity. }
  split; [exact K|]. intro Ind.
  specialize (K [5; 6]%Z). cbn in K. enough (5 = 6)%Z by lia. apply K. apply Ind.
  cbn. unfold every. repeat constructor; lia.
Qed.
Print Assumptions C166_length_refuted.

(** Two arguments: an item of the first and the second are the same variable. *)
Theorem C166_arguments_refuted : exists params k, NoDup (map fst params) /\ (forall p t, In (p, t) params -> good t)
  /\ ~ independent (fst (gen_args params k)) (flat_map (fun pt => parts (snd pt)) params).
Proof.
  exists [("x", TTuple [TInt; TInt; TInt; TInt]); ("x_2_at", TInt)], 1.
  split; [repeat constructor; cbn; intuition discriminate|].
  split; [intros p t [E|[E|[]]]; injection E as _ E; subst; cbn; auto|].
  intro Ind. destruct (Ind [1; 2; 3; 4; 5]%Z) as (env & _ & R).
  - cbn. unfold every. repeat constructor.
  - cbn in R. injection R as _ _ _ A B. unfold read in *. cbn in A, B. rewrite A in B. discriminate.
Qed.
Print Assumptions C166_arguments_refuted.
