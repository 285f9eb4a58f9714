From Coq Require Import ZArith List Bool Arith Lia.
From Verif Require Import Heap_Model Heap_Spec.
Import ListNotations.

Lemma lookup_app h r l r' : lookup (h ++ [(r, l)]) r' = match lookup h r' with Some x => Some x | None => if Nat.eqb r r' then Some l else None end.
Proof. induction h as [|[q m] h IH]; cbn; [reflexivity|]. destruct (Nat.eqb q r'); [reflexivity|exact IH]. Qed.
Lemma add_length hs r v : forall n, length (add_entries hs r v n) = length hs.
Proof. induction hs as [|h hs IH]; intro n; [reflexivity|]. destruct hs as [|h2 hs]; [reflexivity|]. cbn [add_entries length]. f_equal. exact (IH (S n)). Qed.
Lemma add_nth hs r v : forall n k, k < length hs ->
  nth k (add_entries hs r v n) [] = nth k hs [] ++ [(r, if S k =? length hs then v else n + k)].
Proof.
  induction hs as [|h hs IH]; intros n k K; [cbn in K; lia|]. destruct hs as [|h2 hs].
  - destruct k; [reflexivity|cbn in K; lia].
  - change (add_entries (h :: h2 :: hs) r v n) with ((h ++ [(r, n)]) :: add_entries (h2 :: hs) r v (S n)).
    destruct k as [|k]; [cbn; now rewrite Nat.add_0_r|]. cbn [nth]. rewrite IH by (cbn in *; lia). cbn [length].
    replace (S (S k) =? S (S (length hs))) with (S k =? S (length hs)) by (cbn; reflexivity). now rewrite Nat.add_succ_r.
Qed.
Lemma copy_ok h : forall st h' st', copy_entries h st = (h', st') ->
  (exists t, st' = st ++ t) /\
  (forall r, match lookup h r with
             | None => lookup h' r = None
             | Some l => exists l', lookup h' r = Some l' /\ length st <= l' < length st' /\ (l < length st -> nth l' st' 0%Z = nth l st 0%Z)
             end) /\
  (forall r r' l, lookup h' r = Some l -> lookup h' r' = Some l -> r = r').
Proof.
  induction h as [|[q m] h IH]; intros st h' st' E; cbn in E.
  - injection E as <- <-. split; [exists []; now rewrite app_nil_r|]. split; [reflexivity|]. discriminate.
  - destruct (copy_entries h (st ++ [nth m st 0%Z])) as [h2 st2] eqn:C. injection E as <- <-. destruct (IH _ _ _ C) as ((t & T) & B & U).
    assert (LS : length st < length st2) by (rewrite T, !app_length; cbn; lia).
    assert (LB : forall r l, lookup h2 r = Some l -> length st < l).
    { intros r l L. specialize (B r). destruct (lookup h r); [|congruence]. destruct B as (l' & L' & [H _] & _). rewrite app_length in H. cbn in H.
      assert (l' = l) by congruence. lia. }
    split; [exists ([nth m st 0%Z] ++ t); now rewrite T, <- app_assoc|]. split.
    + intro r. cbn [lookup]. destruct (Nat.eqb q r) eqn:Q.
      * exists (length st). split; [reflexivity|]. split; [lia|]. intro L. rewrite T, app_nth1 by (rewrite app_length; cbn; lia).
        rewrite app_nth2 by lia. now rewrite Nat.sub_diag.
      * specialize (B r). destruct (lookup h r) as [l|]; [|exact B]. destruct B as (l' & L' & [H1 H2] & V). exists l'. split; [exact L'|].
        rewrite app_length in H1. cbn in H1. split; [lia|]. intro L. rewrite V by (rewrite app_length; lia). now rewrite app_nth1.
    + intros r r' l. cbn [lookup]. destruct (Nat.eqb_spec q r) as [E1|E1], (Nat.eqb_spec q r') as [E2|E2].
      * congruence.
      * intros [= <-] X. apply LB in X. lia.
      * intros X [= <-]. apply LB in X. lia.
      * apply U.
Qed.
Lemma set_nth_length l : forall n c, length (set_nth l n c) = length l.
Proof. induction l as [|x l IH]; intros [|n] c; cbn; auto. Qed.
Lemma set_nth_nth l : forall n c m, n < length l -> nth m (set_nth l n c) 0%Z = if Nat.eqb m n then c else nth m l 0%Z.
Proof.
  induction l as [|x l IH]; intros [|n] c [|m] L; cbn in *; try lia; try reflexivity. apply IH. lia.
Qed.

Section Refine.
  Variable fresh : ref -> Z.
  Definition look (s : space) (k : nat) (r : ref) : option loc := lookup (nth k (heaps s) []) r.
  Record inv (s : space) (m : rows) : Prop := Inv {
    i_count : length (heaps s) = count m;
    i_pos : 0 < count m;
    i_some : forall k r l, k < count m -> look s k r = Some l -> l < length (store s) /\ field s l = at_row m k r;
    i_none : forall k r, k < count m -> look s k r = None -> at_row m k r = fresh r;
    i_all : forall k k' r, k < count m -> k' < count m -> look s k r = None -> look s k' r = None;
    i_inj : forall k k' r r' l, k < count m -> k' < count m -> look s k r = Some l -> look s k' r' = Some l -> k = k' /\ r = r' }.
  Definition env_ok (s : space) (m : rows) (env : list loc) (envs : list object) : Prop :=
    Forall2 (fun l o => fst o < count m /\ look s (fst o) (snd o) = Some l) env envs.
  Lemma inv_start : inv empty (start fresh).
  Proof.
    split; cbn; auto; intros k; intros; unfold look in *; cbn in *; destruct k as [|[|k]]; try discriminate; try lia; try reflexivity.
    destruct k'; [reflexivity|lia].
  Qed.

  Lemma find_none s m r : inv s m -> (forall k, k < count m -> look s k r = None) ->
    let '(l, s') := add_value_to_heaps fresh s r in
    inv s' m /\ look s' (count m - 1) r = Some l /\ (forall k r' l', k < count m -> look s k r' = Some l' -> look s' k r' = Some l').
  Proof.
    intros I N. unfold add_value_to_heaps. destruct I as [IC IP IS IN IA II].
    set (v := length (store s)). set (s' := Space _ _).
    assert (LK : forall k r', k < count m -> look s' k r' = match look s k r' with Some x => Some x | None => if Nat.eqb r r' then Some (if S k =? count m then v else S v + k) else None end).
    { intros k r' K. unfold look, s'. cbn [heaps]. rewrite add_nth by lia. rewrite IC. apply lookup_app. }
    assert (LL : length (store s') = v + count m).
    { unfold s'. cbn [store]. rewrite app_length. cbn [length]. rewrite repeat_length. fold v. lia. }
    assert (LF : forall l, l < v -> field s' l = field s l).
    { intros l L. unfold field, s'. cbn [store]. now apply app_nth1. }
    assert (LN : forall l, v <= l < v + count m -> field s' l = fresh r).
    { intros l L. unfold field, s'. cbn [store]. rewrite app_nth2 by (fold v; lia). fold v.
      change (fresh r :: repeat (fresh r) (length (heaps s) - 1)) with (repeat (fresh r) (S (length (heaps s) - 1))).
      assert (LR : l - v < S (length (heaps s) - 1)) by lia. revert LR. generalize (l - v), (S (length (heaps s) - 1)).
      intros a b. revert a. induction b as [|b IH]; intros a H; [lia|]. destruct a; cbn; [reflexivity|apply IH; lia]. }
    assert (NEW : forall k, k < count m -> v <= (if S k =? count m then v else S v + k) < v + count m).
    { intros k K. destruct (Nat.eqb_spec (S k) (count m)); lia. }
    split; [|split].
    - split; [unfold s'; cbn [heaps]; now rewrite add_length|exact IP| | | |].
      + intros k r' l K L. rewrite LK in L by exact K. destruct (look s k r') as [x|] eqn:X.
        * injection L as <-. destruct (IS _ _ _ K X) as [A B]. split; [lia|]. now rewrite LF.
        * destruct (Nat.eqb_spec r r') as [ER|ER]; [|discriminate]. injection L as <-. subst r'. split; [rewrite LL; exact (proj2 (NEW k K))|].
          rewrite LN by exact (NEW k K). symmetry. now apply IN.
      + intros k r' K L. rewrite LK in L by exact K. destruct (look s k r') eqn:X; [discriminate|]. now apply IN.
      + intros k k' r' K K' L. rewrite LK in L by exact K. rewrite LK by exact K'. destruct (look s k r') eqn:X; [discriminate|].
        rewrite (IA k k' r' K K' X). destruct (Nat.eqb r r'); [discriminate|reflexivity].
      + intros k k' r1 r2 l K K' L1 L2. rewrite LK in L1 by exact K. rewrite LK in L2 by exact K'.
        destruct (look s k r1) as [x|] eqn:X1, (look s k' r2) as [y|] eqn:X2.
        * injection L1 as ->. injection L2 as ->. eapply II; eauto.
        * injection L1 as ->. destruct (Nat.eqb r r2); [|discriminate]. apply (f_equal (fun o => match o with Some z => z | None => 0 end)) in L2. destruct (IS _ _ _ K X1) as [A _].
          pose proof (NEW k' K') as NW. rewrite L2 in NW. fold v in A. lia.
        * injection L2 as ->. destruct (Nat.eqb r r1); [|discriminate]. apply (f_equal (fun o => match o with Some z => z | None => 0 end)) in L1. destruct (IS _ _ _ K' X2) as [A _].
          pose proof (NEW k K) as NW. rewrite L1 in NW. fold v in A. lia.
        * destruct (Nat.eqb_spec r r1) as [E1|E1]; [|discriminate]. destruct (Nat.eqb_spec r r2) as [E2|E2]; [|discriminate].
          apply (f_equal (fun o => match o with Some z => z | None => 0 end)) in L1, L2. subst r1 r2. split; [|reflexivity].
          destruct (Nat.eqb_spec (S k) (count m)), (Nat.eqb_spec (S k') (count m)); lia.
    - rewrite LK by lia. rewrite N by lia. rewrite Nat.eqb_refl. replace (S (count m - 1) =? count m) with true; [reflexivity|].
      symmetry. apply Nat.eqb_eq. lia.
    - intros k r' l' K L. rewrite LK by exact K. now rewrite L.
  Qed.
  Lemma checkpoint_ok s m : inv s m -> inv (checkpoint s) (copy_row m) /\
    (forall k r l, k < count m -> look s k r = Some l -> look (checkpoint s) k r = Some l).
  Proof.
    intros [IC IP IS IN IA II]. unfold checkpoint. destruct (copy_entries _ _) as [h st] eqn:C.
    destruct (copy_ok _ _ _ _ C) as ((t & T) & B & U). unfold heap_at in *. set (s' := Space _ st).
    assert (LK : forall k r, k < count m -> look s' k r = look s k r).
    { intros k r K. unfold look, s'. cbn [heaps]. rewrite app_nth1 by lia. reflexivity. }
    assert (LL : forall r, look s' (count m) r = lookup h r).
    { intro r. unfold look, s'. cbn [heaps]. rewrite app_nth2 by lia. rewrite IC, Nat.sub_diag. reflexivity. }
    assert (LF : forall l, l < length (store s) -> field s' l = field s l).
    { intros l L. unfold field, s'. cbn [store]. rewrite T. now apply app_nth1. }
    assert (LB : length (store s) <= length st) by (rewrite T, app_length; lia).
    assert (B' : forall r, match look s (count m - 1) r with
             | None => look s' (count m) r = None
             | Some l => exists l', look s' (count m) r = Some l' /\ length (store s) <= l' < length st /\ field s' l' = field s l end).
    { intro r. specialize (B r). rewrite IC in B. fold (look s (count m - 1) r) in B. rewrite LL.
      destruct (look s (count m - 1) r) as [l|] eqn:X; [|exact B]. destruct B as (l' & A1 & A2 & A3). exists l'. split; [exact A1|].
      split; [exact A2|]. apply A3. destruct (IS (count m - 1) r l); [lia|exact X|assumption]. }
    split; [|intros k r l K L; now rewrite LK].
    split; cbn [count copy_row at_row].
    - unfold s'. cbn [heaps]. rewrite app_length, IC. cbn. lia.
    - lia.
    - intros k r l K L. destruct (Nat.eqb_spec k (count m)) as [E|E].
      + subst k. specialize (B' r). destruct (look s (count m - 1) r) as [x|] eqn:X; [|congruence].
        destruct B' as (l' & A1 & A2 & A3). assert (l' = l) by congruence. subst l'. split; [cbn; lia|]. rewrite A3.
        destruct (IS (count m - 1) r x); [lia|exact X|assumption].
      + rewrite LK in L by lia. destruct (IS k r l) as [A1 A2]; [lia|exact L|]. split; [cbn; lia|]. now rewrite LF.
    - intros k r K L. destruct (Nat.eqb_spec k (count m)) as [E|E].
      + subst k. specialize (B' r). destruct (look s (count m - 1) r) as [x|] eqn:X.
        * destruct B' as (l' & A1 & _). congruence.
        * apply IN; [lia|exact X].
      + rewrite LK in L by lia. apply IN; [lia|exact L].
    - assert (Y : forall k r, k < S (count m) -> look s' k r = None <-> look s (count m - 1) r = None).
      { intros k r K. destruct (Nat.eq_dec k (count m)) as [E|E].
        - subst k. specialize (B' r). destruct (look s (count m - 1) r); [|tauto]. destruct B' as (l' & A1 & _). split; congruence.
        - rewrite LK by lia. split; apply IA; lia. }
      intros k k' r K K' L. apply Y; [exact K'|]. now apply (Y k).
    - assert (OLD : forall k r l, k < count m -> look s' k r = Some l -> l < length (store s)).
      { intros k r l K L. rewrite LK in L by exact K. destruct (IS k r l); auto. }
      assert (NEW : forall r l, look s' (count m) r = Some l -> length (store s) <= l).
      { intros r l L. specialize (B' r). destruct (look s (count m - 1) r); [|congruence]. destruct B' as (l' & A1 & A2 & _).
        assert (l' = l) by congruence. lia. }
      intros k k' r r' l K K' L L'. destruct (Nat.eq_dec k (count m)) as [E|E], (Nat.eq_dec k' (count m)) as [E'|E'].
      + subst k k'. split; [reflexivity|]. rewrite LL in L, L'. exact (U _ _ _ L L').
      + subst k. apply NEW in L. apply OLD in L'; lia.
      + subst k'. apply NEW in L'. apply OLD in L; lia.
      + rewrite LK in L, L' by lia. eapply II; eauto; lia.
  Qed.
  Lemma write_ok s m k r l c : inv s m -> k < count m -> look s k r = Some l ->
    inv (Space (heaps s) (set_nth (store s) l c)) (put m (k, r) c).
  Proof.
    intros [IC IP IS IN IA II] K L. destruct (IS k r l K L) as [LL _].
    split; cbn [heaps count put at_row]; auto; unfold look in *; cbn [heaps store]; auto.
    - intros k' r' l' K' L'. destruct (IS k' r' l' K' L') as [A B]. split; [now rewrite set_nth_length|].
      unfold field. cbn [store]. rewrite set_nth_nth by exact LL. unfold same_object. cbn [fst snd].
      destruct (Nat.eqb_spec l' l) as [E|E].
      + subst l'. destruct (II k' k r' r l K' K L' L) as [-> ->]. now rewrite !Nat.eqb_refl.
      + destruct (Nat.eqb_spec k' k) as [EK|EK], (Nat.eqb_spec r' r) as [ER|ER]; cbn [andb]; try exact B. subst. congruence.
    - intros k' r' K' L'. unfold same_object. cbn [fst snd].
      destruct (Nat.eqb_spec k' k) as [EK|EK], (Nat.eqb_spec r' r) as [ER|ER]; cbn [andb]; try (now apply IN).
      subst. unfold look in L. congruence.
  Qed.

  (** An older snapshot is only asked for references that have been looked up before; names of
      objects are those of objects that were got. *)
  Fixpoint proper (p : prog) (s : space) (env : list loc) : Prop :=
    match p with
    | Done _ => True
    | Find k r p =>
        match k with Some k => k < length (heaps s) /\ (S k < length (heaps s) -> look s k r <> None) | None => True end /\
        let '(l, s) := find_key_in_heap fresh s r k in proper p s (env ++ [l])
    | Read n p => n < length env /\ proper (p (field s (nth n env 0))) s env
    | Write n c p => n < length env /\ proper p (Space (heaps s) (set_nth (store s) (nth n env 0) c)) env
    | Same m n p => m < length env /\ n < length env /\ proper (p (Nat.eqb (nth m env 0) (nth n env 0))) s env
    | Checkpoint p => proper p (checkpoint s) env
    end.
  Lemma env_nth s m env envs n : env_ok s m env envs -> n < length env ->
    fst (nth n envs (0, 0)) < count m /\ look s (fst (nth n envs (0, 0))) (snd (nth n envs (0, 0))) = Some (nth n env 0).
  Proof.
    intros E. revert n. induction E as [|l o env envs H E IH]; intros n N; [cbn in N; lia|]. destruct n as [|n]; [exact H|]. apply IH. cbn in N. lia.
  Qed.
  Lemma refine p : forall s m env envs, inv s m -> env_ok s m env envs -> proper p s env -> run fresh p s env = eager p m envs.
  Proof.
    induction p as [z|k r p IH|n p IH|n c p IH|a b p IH|p IH]; intros s m env envs I E P; cbn [run eager proper] in *.
    - reflexivity.
    - destruct P as [PK P].
      assert (R : exists k', k' < count m /\ the_row m k = k' /\ heap_at s k = nth k' (heaps s) [] /\ (k' <> count m - 1 -> look s k' r <> None)).
      { pose proof (i_count _ _ I) as IC. pose proof (i_pos _ _ I) as IP. destruct k as [k|]; cbn.
        - exists k. destruct PK as [PK1 PK2]. split; [lia|]. split; [reflexivity|]. split; [reflexivity|]. intro N. apply PK2. lia.
        - exists (count m - 1). split; [lia|]. split; [reflexivity|]. unfold heap_at. rewrite IC. split; [reflexivity|congruence]. }
      destruct R as (k' & K & -> & RH & RN). unfold find_key_in_heap in *. rewrite RH in *. fold (look s k' r) in *.
      destruct (look s k' r) as [l|] eqn:L.
      + apply IH; auto. apply Forall2_app; [exact E|]. repeat constructor; auto.
      + assert (ALL : forall k, k < count m -> look s k r = None) by (intros k2 K2; now apply (i_all _ _ I k')).
        pose proof (find_none s m r I ALL) as F. destruct (add_value_to_heaps fresh s r) as [l s']. destruct F as (I' & L' & KEEP).
        assert (k' = count m - 1) by (destruct (Nat.eq_dec k' (count m - 1)) as [Q|Q]; [exact Q|apply RN in Q; congruence]). subst k'.
        apply IH; auto. apply Forall2_app; [|repeat constructor; auto].
        clear -E KEEP. induction E as [|x o env envs [H1 H2] E IH]; constructor; auto.
    - destruct P as [N P]. destruct (env_nth _ _ _ _ _ E N) as [K L]. destruct (nth n envs (0, 0)) as [k r]. cbn [fst snd] in *.
      destruct (i_some _ _ I _ _ _ K L) as [_ F]. rewrite <- F. now apply IH.
    - destruct P as [N P]. destruct (env_nth _ _ _ _ _ E N) as [K L]. destruct (nth n envs (0, 0)) as [k r]. cbn [fst snd] in *.
      apply IH; auto. now apply write_ok.
    - destruct P as (A & B & P). destruct (env_nth _ _ _ _ _ E A) as [K1 L1]. destruct (env_nth _ _ _ _ _ E B) as [K2 L2].
      replace (same_object (nth a envs (0, 0)) (nth b envs (0, 0))) with (Nat.eqb (nth a env 0) (nth b env 0)); [now apply IH|].
      destruct (nth a envs (0, 0)) as [k1 r1], (nth b envs (0, 0)) as [k2 r2]. cbn [fst snd] in *. unfold same_object. cbn [fst snd].
      destruct (Nat.eqb_spec (nth a env 0) (nth b env 0)) as [Q|Q].
      + rewrite Q in L1. destruct (i_inj _ _ I _ _ _ _ _ K1 K2 L1 L2) as [-> ->]. now rewrite !Nat.eqb_refl.
      + destruct (Nat.eqb_spec k1 k2) as [E1|E1], (Nat.eqb_spec r1 r2) as [E2|E2]; cbn [andb]; try reflexivity. subst. congruence.
    - destruct (checkpoint_ok s m I) as [I' KEEP]. apply IH; auto. clear -E KEEP.
      induction E as [|x o env envs [H1 H2] E IH]; constructor; auto. cbn [count copy_row]. split; [lia|auto].
  Qed.

  (** * Containers *)
  (** Only the container that the function got is used, and it is not copied; [n] objects have names *)
  Fixpoint alone (p : cprog) (n : nat) : Prop :=
    match p with
    | CDone _ => True
    | CGet c _ p => c = 1 /\ alone p (S n)
    | CCopy _ _ => False
    | CRead m p => m < n /\ forall z, alone (p z) n
    | CWrite m _ p => m < n /\ alone p n
    end.
  Fixpoint finds (arg : list ref) (p : cprog) : prog :=
    match p with
    | CDone z => Done z
    | CGet c i p => Find (Some 1) (nth i arg 0) (finds arg p)
    | CCopy c p => finds arg p
    | CRead m p => Read m (fun z => finds arg (p z))
    | CWrite m c p => Write m c (finds arg p)
    end.
  Lemma finds_run arg a p : forall s env n, alone p n -> crun fresh p s [a; Container arg (Some 1)] env = run fresh (finds arg p) s env.
  Proof.
    induction p as [z|c i p IH|c p IH|m p IH|m c p IH]; intros s env n A; cbn [crun run finds alone] in *.
    - reflexivity.
    - destruct A as [-> A]. cbn [nth elements c_snapshot]. destruct (find_key_in_heap _ _ _ _) as [l s']. eapply IH, A.
    - contradiction.
    - destruct A as [_ A]. eapply IH, A.
    - destruct A as [_ A]. eapply IH, A.
  Qed.
  Lemma finds_proper arg p : forall s env, length (heaps s) = 2 -> alone p (length env) -> proper (finds arg p) s env.
  Proof.
    induction p as [z|c i p IH|c p IH|m p IH|m c p IH]; intros s env L A; cbn [finds alone proper] in *.
    - exact Logic.I.
    - destruct A as [_ A]. split; [split; lia|]. unfold find_key_in_heap. destruct (lookup _ _) as [l|].
      + apply IH; [exact L|]. now rewrite app_length, Nat.add_comm.
      + unfold add_value_to_heaps. apply IH; [cbn [heaps]; now rewrite add_length|]. now rewrite app_length, Nat.add_comm.
    - contradiction.
    - destruct A as [M A]. split; [exact M|]. now apply IH.
    - destruct A as [M A]. split; [exact M|]. now apply IH.
  Qed.
  Lemma finds_eager arg a p : forall rw m env n, alone p n -> count rw = 2 -> (forall k r, at_row rw k r = m k r) ->
    eager (finds arg p) rw env = pyrun p 2 m [a; (1, arg)] env.
  Proof.
    induction p as [z|c i p IH|c p IH|q p IH|q c p IH]; intros rw m env n A C E; cbn [finds alone eager pyrun] in *.
    - reflexivity.
    - destruct A as [-> A]. cbn [nth the_row]. eapply IH; eauto.
    - contradiction.
    - destruct A as [_ A]. destruct (nth q env (0, 0)) as [k r]. rewrite E. eapply IH; eauto.
    - destruct A as [_ A]. destruct (nth q env (0, 0)) as [k r]. eapply IH; eauto. intros k' r'. cbn [put at_row]. unfold same_object. cbn [fst snd].
      now rewrite E.
  Qed.
  Lemma alone_ok p arg : alone p 0 -> attempt fresh p arg = pycall fresh p arg.
  Proof.
    intro A. unfold attempt, pycall. cbn [checkpoint empty heap_at heaps store length nth copy_entries app current_snapshot Nat.sub].
    rewrite (finds_run arg _ _ _ _ _ A).
    assert (I : inv (checkpoint empty) (copy_row (start fresh))) by (apply checkpoint_ok, inv_start).
    rewrite (refine _ _ (copy_row (start fresh)) [] []); [|exact I|constructor|now apply finds_proper].
    eapply finds_eager; [exact A|reflexivity|]. intros k r. cbn. now destruct (k =? 1).
  Qed.

  (** Nothing is changed *)
  Fixpoint readonly (p : cprog) (n : nat) : Prop :=
    match p with
    | CDone _ => True
    | CGet _ _ p => readonly p (S n)
    | CCopy _ p => readonly p n
    | CRead m p => m < n /\ forall z, readonly (p z) n
    | CWrite _ _ _ => False
    end.
  Definition all_fresh (s : space) : Prop :=
    forall h r l, In h (heaps s) -> In (r, l) h -> l < length (store s) /\ field s l = fresh r.
  Lemma lookup_in h r l : lookup h r = Some l -> In (r, l) h.
  Proof.
    induction h as [|[q m] h IH]; cbn; [discriminate|]. destruct (Nat.eqb_spec q r) as [->|]; [intros [= ->]; now left|]. right. now apply IH.
  Qed.
  Lemma in_add hs r v : forall n h, In h (add_entries hs r v n) -> exists g l, In g hs /\ h = g ++ [(r, l)] /\ (l = v \/ n <= l < n + (length hs - 1)).
  Proof.
    induction hs as [|h0 hs IH]; intros n h H; [contradiction|]. destruct hs as [|h2 hs].
    - destruct H as [<-|[]]. exists h0, v. cbn. auto.
    - change (add_entries (h0 :: h2 :: hs) r v n) with ((h0 ++ [(r, n)]) :: add_entries (h2 :: hs) r v (S n)) in H.
      destruct H as [<-|H].
      + exists h0, n. cbn. split; [now left|]. split; [reflexivity|]. right. lia.
      + destruct (IH _ _ H) as (g & l & G & E & V). exists g, l. split; [now right|]. split; [exact E|]. cbn [length] in *. destruct V; [now left|right; lia].
  Qed.
  Lemma find_fresh s r k : all_fresh s -> let '(l, s') := find_key_in_heap fresh s r k in
    all_fresh s' /\ field s' l = fresh r /\ l < length (store s') /\ (forall x, x < length (store s) -> x < length (store s') /\ field s' x = field s x).
  Proof.
    intro A. unfold find_key_in_heap. destruct (lookup (heap_at s k) r) as [l|] eqn:L.
    - apply lookup_in in L. assert (H : In (heap_at s k) (heaps s)).
      { unfold heap_at in *. match goal with |- In (nth ?n _ _) _ => destruct (Nat.lt_ge_cases n (length (heaps s))) as [Q|Q] end; [now apply nth_In|].
        rewrite nth_overflow in L by exact Q. contradiction. }
      destruct (A _ _ _ H L) as [A1 A2]. auto.
    - unfold add_value_to_heaps. set (v := length (store s)). set (s' := Space _ _).
      assert (LL : length (store s') = S v + (length (heaps s) - 1)).
      { unfold s'. cbn [store]. rewrite app_length. cbn [length]. rewrite repeat_length. fold v. lia. }
      assert (LF : forall l, l < v -> field s' l = field s l).
      { intros l H. unfold field, s'. cbn [store]. now apply app_nth1. }
      assert (LN : forall l, v <= l < S v + (length (heaps s) - 1) -> field s' l = fresh r).
      { intros l H. unfold field, s'. cbn [store]. rewrite app_nth2 by (fold v; lia). fold v.
        change (fresh r :: repeat (fresh r) (length (heaps s) - 1)) with (repeat (fresh r) (S (length (heaps s) - 1))).
        assert (LR : l - v < S (length (heaps s) - 1)) by lia. revert LR. generalize (l - v), (S (length (heaps s) - 1)).
        intros a b. revert a. induction b as [|b IH]; intros a Hl; [lia|]. destruct a; cbn; [reflexivity|apply IH; lia]. }
      split; [|split; [|split]].
      + intros h q l H Q. unfold s' in H. cbn [heaps] in H. destruct (in_add _ _ _ _ _ H) as (g & l0 & G & -> & V).
        apply in_app_iff in Q. destruct Q as [Q|[[= <- <-]|[]]].
        * destruct (A _ _ _ G Q) as [A1 A2]. fold v in A1. split; [lia|]. now rewrite LF.
        * split; [|apply LN]; lia.
      + apply LN. lia.
      + lia.
      + intros x X. fold v in X. split; [lia|now apply LF].
  Qed.
  Lemma readonly_ok p : forall copies s cs (env : list loc) m (pcs : list pycontainer) (penv : list object), all_fresh s -> (forall k r, m k r = fresh r) ->
    map elements cs = map snd pcs -> Forall2 (fun l o => l < length (store s) /\ field s l = fresh (snd o)) env penv ->
    readonly p (length env) -> crun fresh p s cs env = pyrun p copies m pcs penv.
  Proof.
    induction p as [z|c i p IH|c p IH|q p IH|q c p IH]; intros copies s cs env m pcs penv A M C E R; cbn [crun pyrun readonly] in *.
    - reflexivity.
    - assert (EL : elements (nth c cs no_container) = snd (nth c pcs ((0, []) : pycontainer))).
      { unfold pycontainer in *. rewrite <- (map_nth elements), <- (map_nth (@snd nat (list ref))), C. reflexivity. }
      unfold pycontainer in *. destruct (nth c pcs (0, [])) as [k l]. cbn [snd] in EL. rewrite EL.
      pose proof (find_fresh s (nth i l 0) (c_snapshot (nth c cs no_container)) A) as F.
      destruct (find_key_in_heap _ _ _ _) as [x s']. destruct F as (F1 & F2 & F3 & F4). apply IH; auto.
      + apply Forall2_app; [|repeat constructor; auto]. clear -E F4. induction E as [|a o env envs [H1 H2] E IH]; constructor; auto.
        destruct (F4 _ H1) as [G1 G2]. split; [exact G1|]. now rewrite G2.
      + now rewrite app_length, Nat.add_comm.
    - assert (EL : elements (nth c cs no_container) = snd (nth c pcs ((0, []) : pycontainer))).
      { unfold pycontainer in *. rewrite <- (map_nth elements), <- (map_nth (@snd nat (list ref))), C. reflexivity. }
      unfold pycontainer in *. destruct (nth c pcs (0, [])) as [k l]. cbn [snd] in EL. rewrite EL. apply IH; auto.
      + intros k' r. destruct (k' =? copies); apply M.
      + now rewrite !map_app, C.
    - destruct R as [Q R]. assert (H : field s (nth q env 0) = fresh (snd (nth q penv (0, 0)))).
      { clear -E Q. revert q Q. induction E as [|a o env envs [H1 H2] E IH]; intros q Q; [cbn in Q; lia|]. destruct q; [exact H2|]. apply IH. cbn in Q. lia. }
      rewrite H. destruct (nth q penv (0, 0)) as [k r]. rewrite M. cbn [snd]. now apply IH.
    - contradiction.
  Qed.
End Refine.
