(** Proofs about regular expression matching. *)
From Coq Require Import List Bool ZArith Lia ZifyBool ZifyNat Wf_nat Permutation.
From Verif Require Import Py PySeq_Spec Range_Spec Str_Model Regex_Model Regex_Spec.
Import ListNotations.
Open Scope Z_scope.

(** ** Sequencing *)
Definition addl (l : captures) (y : way) : way := (fst y, snd y ++ l).

Lemma and_then_cons x w k : and_then (x :: w) k = map (addl (snd x)) (k (fst x)) ++ and_then w k.
Proof. reflexivity. Qed.
Lemma addl_nil y : addl [] y = y.
Proof. unfold addl. rewrite app_nil_r. destruct y; reflexivity. Qed.
Lemma map_addl_nil w : map (addl []) w = w.
Proof. induction w; cbn [map]; [auto|]. rewrite addl_nil, IHw. auto. Qed.
Lemma addl_addl a b y : addl a (addl b y) = addl (b ++ a) y.
Proof. unfold addl. cbn [fst snd]. rewrite app_assoc. auto. Qed.
Lemma map_addl_addl a b w : map (addl a) (map (addl b) w) = map (addl (b ++ a)) w.
Proof. rewrite map_map. apply map_ext. intro. apply addl_addl. Qed.
Lemma and_then_one j l k : and_then [(j, l)] k = map (addl l) (k j).
Proof. rewrite and_then_cons. cbn. apply app_nil_r. Qed.
Lemma and_then_app a b k : and_then (a ++ b) k = and_then a k ++ and_then b k.
Proof. apply flat_map_app. Qed.
Lemma and_then_map l w k : and_then (map (addl l) w) k = map (addl l) (and_then w k).
Proof.
  induction w as [|x w IH]; cbn [map]; [auto|].
  rewrite !and_then_cons, IH, map_app, map_addl_addl. auto.
Qed.
Lemma and_then_assoc w k1 k2 :
  and_then (and_then w k1) k2 = and_then w (fun j => and_then (k1 j) k2).
Proof.
  induction w as [|x w IH]; [auto|].
  rewrite !and_then_cons, and_then_app, IH, and_then_map. auto.
Qed.
Lemma and_then_ret w : and_then w (fun j => [(j, [])]) = w.
Proof.
  induction w as [|[j l] w IH]; [auto|]. rewrite and_then_cons, IH. auto.
Qed.
Lemma and_then_ext w k1 k2 :
  (forall x, In x w -> k1 (fst x) = k2 (fst x)) -> and_then w k1 = and_then w k2.
Proof.
  induction w as [|x w IH]; intro E; [auto|].
  rewrite !and_then_cons, IH, (E x) by (intros; try apply E; cbn; auto). auto.
Qed.
Lemma and_then_in y w k :
  In y (and_then w k) -> exists x z, In x w /\ In z (k (fst x)) /\ y = addl (snd x) z.
Proof.
  intro H. apply in_flat_map in H. destruct H as [x [H1 H2]].
  apply in_map_iff in H2. destruct H2 as [z [H2 H3]]. exists x, z. auto.
Qed.

Lemma find_app {A} (f : A -> bool) a b :
  find f (a ++ b) = match find f a with Some x => Some x | None => find f b end.
Proof. induction a; cbn; [auto|]. destruct (f a); auto. Qed.
Lemma find_map {A B} (f : B -> bool) (g : A -> B) l :
  find f (map g l) = option_map g (find (fun x => f (g x)) l).
Proof. induction l; cbn; [auto|]. destruct (f (g a)); auto. Qed.
Lemma find_ext_in {A} (f g : A -> bool) l :
  (forall x, In x l -> f x = g x) -> find f l = find g l.
Proof.
  induction l; intro E; cbn; [auto|]. rewrite (E a) by (cbn; auto).
  rewrite IHl by (intros; apply E; cbn; auto). auto.
Qed.
Lemma find_true {A} (l : list A) : find (fun _ => true) l = hd_error l.
Proof. destruct l; auto. Qed.

Lemma captured_app g a b :
  captured g (a ++ b) = match captured g a with Some x => Some x | None => captured g b end.
Proof. induction a as [|[h sp] a IH]; cbn; [auto|]. destruct (Nat.eqb g h); auto. Qed.
Lemma captured_none g l : (forall sp, ~ In (g, sp) l) -> captured g l = None.
Proof.
  induction l as [|[h sp] l IH]; intro H; cbn; [auto|].
  destruct (Nat.eqb_spec g h) as [->|n]; [destruct (H sp); cbn; auto|].
  apply IH. intros sp' K. apply (H sp'). cbn. auto.
Qed.

(** ** Match parts *)
Lemma nth_overlay g p q :
  nth g (overlay p q) None = match nth g q None with None => nth g p None | x => x end.
Proof.
  revert g q. induction p as [|a p IH]; intros g q.
  - cbn. destruct (nth g q None), g; auto.
  - destruct q as [|b q]; [destruct g; auto|].
    destruct g; cbn; [destruct b; auto|apply IH].
Qed.
Lemma nth_repeat_None g k : nth g (repeat (@None span) k) None = None.
Proof. revert g. induction k; intros [|g]; cbn; auto. Qed.
Lemma nth_pad g (p : part) k : nth g (p ++ repeat None k) None = nth g p None.
Proof.
  destruct (Nat.lt_ge_cases g (length p)).
  - apply app_nth1. auto.
  - rewrite app_nth2, nth_repeat_None, nth_overflow by lia. auto.
Qed.
Lemma nth_set g n v p : nth g (set_nth n v p) None = if Nat.eqb g n then v else nth g p None.
Proof.
  unfold set_nth. cbv zeta. rewrite <- (nth_pad g p (S n - length p)).
  set (q := p ++ repeat None (S n - length p)).
  assert (L : (n < length q)%nat).
  { unfold q. rewrite app_length, repeat_length. lia. }
  clearbody q.
  assert (F : length (firstn n q) = n) by (rewrite firstn_length; lia).
  destruct (Nat.eqb_spec g n) as [->|ne].
  - rewrite app_nth2 by lia. rewrite F, Nat.sub_diag. auto.
  - destruct (Nat.lt_ge_cases g n).
    + rewrite app_nth1 by lia.
      rewrite <- (firstn_skipn n q) at 2. rewrite app_nth1 by lia. auto.
    + rewrite app_nth2 by lia. rewrite F.
      replace (g - n)%nat with (S (g - S n)) by lia. cbn [nth].
      rewrite <- (firstn_skipn (S n) q) at 2.
      assert (F2 : length (firstn (S n) q) = S n) by (rewrite firstn_length; lia).
      rewrite (app_nth2 (firstn (S n) q)) by lia. rewrite F2. auto.
Qed.

(** A match part stands for a way of matching that began at [i]. *)
Definition stands (i : Z) (w : way) (p : part) : Prop :=
  nth 0 p None = Some (i, fst w) /\
  forall g, (0 < g)%nat -> nth g p None = captured g (snd w).
Definition stands_o (i : Z) (o : option way) (m : option part) : Prop :=
  match o, m with
  | None, None => True
  | Some w, Some p => stands i w p
  | _, _ => False
  end.

Lemma stands_start i w p : stands i w p -> p_start p = i.
Proof. intros [H _]. destruct p as [|[[a b]|] p]; cbn in H; [discriminate| |discriminate]. injection H. cbn. auto. Qed.
Lemma stands_end i w p : stands i w p -> p_end p = fst w.
Proof. intros [H _]. destruct p as [|[[a b]|] p]; cbn in H; [discriminate| |discriminate]. injection H. cbn. auto. Qed.
Lemma stands_here i : stands i (i, []) [Some (i, i)].
Proof. split; [auto|]. intros [|[|g]] H; [lia|auto|auto]. Qed.
Lemma stands_char i : stands i (i + 1, []) [Some (i, i + 1)].
Proof. split; [auto|]. intros [|[|g]] H; [lia|auto|auto]. Qed.
Lemma stands_add i x y p q : stands i x p -> stands (fst x) y q -> stands i (addl (snd x) y) (add_match p q).
Proof.
  intros Hp Hq. unfold add_match. split.
  - rewrite nth_set. cbn. rewrite (stands_start _ _ _ Hp), (stands_end _ _ _ Hq). auto.
  - intros g G. rewrite nth_set. destruct g as [|g]; [lia|]. cbn [Nat.eqb].
    rewrite nth_overlay. cbn [addl snd]. rewrite captured_app.
    destruct Hp as [_ Hp], Hq as [_ Hq]. rewrite Hp, Hq by lia.
    destruct (captured (S g) (snd y)); auto.
Qed.

Lemma NoDup_app_remove_r (l l' : list nat) : NoDup (l ++ l') -> NoDup l.
Proof.
  induction l as [|a l IH]; cbn; intro H; [constructor|]. inversion H; subst.
  constructor; [|auto]. rewrite in_app_iff in *. tauto.
Qed.
Lemma NoDup_app_remove_l (l l' : list nat) : NoDup (l ++ l') -> NoDup l'.
Proof. induction l as [|a l IH]; cbn; intro H; [auto|]. inversion H; subst. auto. Qed.

Section P.
  Variable C : Type.
  Variable covers : C -> Z -> bool.
  Variable word : Z -> bool.
  Variable multiline : bool.
  Variable s : list Z.
  Notation len := (len s).
  Notation ways := (ways C covers word multiline s).
  Notation seq_ways := (seq_ways C covers word multiline s).
  Notation at_holds := (at_holds word multiline s).
  Notation mp := (match_patterns C covers word multiline s).

  Lemma ways_rep lazy lo hi sub i :
    ways (NRep lazy lo hi sub) i = repeats (seq_ways sub) lazy (lo + Z.to_nat (len - i) + 2) lo hi None i.
  Proof. reflexivity. Qed.
  Lemma ways_branch_cons a alts i :
    ways (NBranch (a :: alts)) i = seq_ways a i ++ ways (NBranch alts) i.
  Proof. reflexivity. Qed.
  Lemma ways_group g sub i :
    ways (NGroup g sub) i = map (fun x => (fst x, (g, (i, fst x)) :: snd x)) (seq_ways sub i).
  Proof. reflexivity. Qed.
  Lemma ways_look ahead positive width sub i :
    ways (NLook ahead positive width sub) i =
    let from := if ahead then i else i - Z.of_nat width in
    let found := if from <? 0 then [] else seq_ways sub from in
    if positive then match found with [] => [] | (_, l) :: _ => [(i, l)] end
    else match found with [] => [(i, [])] | _ :: _ => [] end.
  Proof. reflexivity. Qed.

  Lemma seq_app a b i : seq_ways (a ++ b) i = and_then (seq_ways a i) (seq_ways b).
  Proof.
    revert i. induction a as [|p a IH]; intro i.
    - cbn [app Regex_Spec.seq_ways]. rewrite and_then_one, map_addl_nil. auto.
    - cbn [app Regex_Spec.seq_ways]. rewrite and_then_assoc. apply and_then_ext. intros. apply IH.
  Qed.

  (** ** Sizes and groups *)
  Fixpoint size (p : node C) : nat :=
    let fix sizes (ps : list (node C)) : nat := match ps with [] => O | p :: ps => (size p + sizes ps)%nat end in
    match p with
    | NChar _ | NAt _ | NEnd _ _ => 1
    | NRep _ lo _ sub => (match lo with O => 2 | _ => 1 end) + sizes sub
    | NBranch alts =>
        S ((fix any (alts : list (list (node C))) : nat :=
              match alts with [] => O | a :: alts => S (sizes a + any alts) end) alts)
    | NLook _ _ _ sub => S (sizes sub)
    | NGroup _ sub => S (S (sizes sub))
    end%nat.
  Fixpoint sizes (ps : list (node C)) : nat := match ps with [] => O | p :: ps => (size p + sizes ps)%nat end.
  Lemma size_rep lazy lo hi sub : size (NRep lazy lo hi sub) = ((match lo with O => 2 | _ => 1 end) + sizes sub)%nat.
  Proof. reflexivity. Qed.
  Lemma size_branch a alts : size (NBranch (a :: alts)) = S (sizes a + size (NBranch alts)).
  Proof. change (S (S (sizes a + pred (size (NBranch alts)))) = S (sizes a + size (NBranch alts))). cbn [size]. lia. Qed.
  Lemma size_look x y w sub : size (NLook x y w sub) = S (sizes sub).
  Proof. reflexivity. Qed.
  Lemma size_group g sub : size (NGroup g sub) = S (S (sizes sub)).
  Proof. reflexivity. Qed.
  Lemma sizes_app a b : sizes (a ++ b) = (sizes a + sizes b)%nat.
  Proof. induction a; cbn [app sizes]; lia. Qed.
  Lemma size_pos p : (1 <= size p)%nat.
  Proof. destruct p; try (cbn; lia). destruct lo; rewrite size_rep; lia. Qed.

  Fixpoint groups (p : node C) : list nat :=
    let fix groupss (ps : list (node C)) : list nat := match ps with [] => [] | p :: ps => groups p ++ groupss ps end in
    match p with
    | NChar _ | NAt _ => []
    | NRep _ _ _ sub => groupss sub
    | NBranch alts =>
        (fix any (alts : list (list (node C))) : list nat :=
           match alts with [] => [] | a :: alts => groupss a ++ any alts end) alts
    | NLook _ _ _ sub => groupss sub
    | NGroup g sub => g :: groupss sub
    | NEnd g _ => [g]
    end.
  Fixpoint groupss (ps : list (node C)) : list nat := match ps with [] => [] | p :: ps => groups p ++ groupss ps end.
  Lemma groups_branch a alts : groups (NBranch (a :: alts)) = groupss a ++ groups (NBranch alts).
  Proof. reflexivity. Qed.
  Lemma groupss_app a b : groupss (a ++ b) = groupss a ++ groupss b.
  Proof. induction a; cbn [app groupss]; [auto|]. rewrite IHa, app_assoc. auto. Qed.

  (** Every way of matching ends where it began or later, within the string, and
      captures only groups of the pattern and spans that end within the string. *)
  Definition fine (gs : list nat) (i : Z) (w : list way) : Prop :=
    forall j l, In (j, l) w -> i <= j <= len /\ forall g sp, In (g, sp) l -> In g gs /\ 0 <= snd sp <= len.

  Lemma fine_and_then gs gs' i w k :
    fine gs i w -> (forall j l, In (j, l) w -> fine gs' j (k j)) -> fine (gs ++ gs') i (and_then w k).
  Proof.
    intros Hw Hk j l H. apply and_then_in in H. destruct H as [[a la] [[b lb] [H1 [H2 H3]]]].
    cbn in H2, H3. injection H3 as -> ->.
    destruct (Hw _ _ H1) as [A B]. destruct (Hk _ _ H1 _ _ H2) as [A' B'].
    split; [lia|]. intros g sp K. rewrite in_app_iff. apply in_app_or in K.
    destruct K as [K|K]; [destruct (B' _ _ K)|destruct (B _ _ K)]; auto.
  Qed.
  Lemma fine_sub gs gs' i w : (forall g, In g gs -> In g gs') -> fine gs i w -> fine gs' i w.
  Proof. intros A B j l H. destruct (B _ _ H) as [D E]. split; [auto|]. intros g sp K. destruct (E _ _ K). auto. Qed.
  Lemma fine_app gs i a b : fine gs i a -> fine gs i b -> fine gs i (a ++ b).
  Proof. intros A B j l H. apply in_app_or in H. destruct H; eauto. Qed.
  Lemma fine_nil gs i : fine gs i [].
  Proof. intros j l []. Qed.
  Lemma fine_here gs i : 0 <= i <= len -> fine gs i [(i, [])].
  Proof. intros A j l [K|[]]. injection K as <- <-. split; [lia|]. intros ? ? []. Qed.

  Lemma fine_repeats gs body lazy :
    (forall i, 0 <= i <= len -> fine gs i (body i)) ->
    forall k lo hi last i, 0 <= i <= len -> fine gs i (repeats body lazy k lo hi last i).
  Proof.
    intro B. induction k as [|k IH]; intros lo hi last i I; [apply fine_nil|].
    assert (K : forall lo hi last, fine gs i (and_then (body i) (repeats body lazy k lo hi last))).
    { intros. apply fine_sub with (gs := gs ++ gs); [intros g G; apply in_app_or in G; tauto|].
      apply fine_and_then; [auto|]. intros j l J. apply IH. destruct (B i I _ _ J). lia. }
    cbn [repeats]. destruct lo as [|lo]; [|apply K].
    assert (M : fine gs i (if match hi with Some O => true | _ => false end ||
                              match last with Some x => x =? i | None => false end then []
                           else and_then (body i) (repeats body lazy k O (option_map Nat.pred hi) (Some i)))).
    { match goal with |- fine _ _ (if ?b then _ else _) => destruct b end; [apply fine_nil|apply K]. }
    destruct lazy.
    - apply (fine_app gs i [(i, [])]); [apply fine_here; auto|apply M].
    - apply fine_app; [apply M|apply fine_here; auto].
  Qed.

  Lemma len_at i c : at_pos s i = Some c -> 0 <= i < len.
  Proof.
    unfold at_pos. destruct (Z.ltb_spec i 0); [discriminate|]. intro E.
    assert (Z.to_nat i < length s)%nat by (apply nth_error_Some; congruence).
    unfold Regex_Spec.len. lia.
  Qed.

  Lemma fine_all n :
    (forall p i, (size p <= n)%nat -> 0 <= i <= len -> fine (groups p) i (ways p i)) /\
    (forall ps i, (sizes ps <= n)%nat -> 0 <= i <= len -> fine (groupss ps) i (seq_ways ps i)).
  Proof.
    induction n as [|n [IHp IHs]].
    { split.
      - intros p i H. pose proof (size_pos p). lia.
      - intros [|p ps] i H I; [apply fine_here; auto|].
        cbn [sizes] in H. pose proof (size_pos p). lia. }
    assert (P : forall p i, (size p <= S n)%nat -> 0 <= i <= len -> fine (groups p) i (ways p i)).
    { intros p i H I. destruct p as [c|lazy lo hi sub|alts|a|ahead pos w sub|g sub|g b].
      - cbn. destruct (holds (covers c) (at_pos s i)) eqn:E; [|apply fine_nil].
        unfold holds in E. destruct (at_pos s i) eqn:E2; [|discriminate]. apply len_at in E2.
        intros j l [K|[]]. injection K as <- <-. split; [lia|]. intros ? ? [].
      - rewrite ways_rep. change (groups (NRep lazy lo hi sub)) with (groupss sub).
        apply fine_repeats; [|auto]. intros. apply IHs; [|auto].
        rewrite size_rep in H. destruct lo; lia.
      - induction alts as [|a alts IHa]; [apply fine_nil|].
        rewrite ways_branch_cons, groups_branch. rewrite size_branch in H.
        apply fine_app.
        + apply fine_sub with (gs := groupss a); [intros; apply in_app_iff; auto|].
          apply IHs; [lia|auto].
        + apply fine_sub with (gs := groups (NBranch alts)); [intros; apply in_app_iff; auto|].
          apply IHa. lia.
      - cbn. destruct (at_holds a i); [apply fine_here; auto|apply fine_nil].
      - rewrite ways_look. cbv zeta. change (groups (NLook ahead pos w sub)) with (groupss sub).
        rewrite size_look in H.
        set (from := if ahead then i else i - Z.of_nat w).
        destruct (from <? 0) eqn:F.
        + destruct pos; [apply fine_nil|apply fine_here; auto].
        + destruct pos.
          * assert (X : fine (groupss sub) from (seq_ways sub from)).
            { apply IHs; [lia|]. unfold from in *. destruct ahead; lia. }
            destruct (seq_ways sub from) as [|[e l] ?]; [apply fine_nil|].
            intros j l' [K|[]]. injection K as <- <-. split; [lia|].
            destruct (X e l) as [_ Y]; [cbn; auto|auto].
          * destruct (seq_ways sub from); [apply fine_here; auto|apply fine_nil].
      - rewrite ways_group. rewrite size_group in H. change (groups (NGroup g sub)) with (g :: groupss sub).
        intros j l K. apply in_map_iff in K. destruct K as [[e le] [K1 K2]].
        cbn in K1. injection K1 as <- <-.
        destruct (IHs sub i ltac:(lia) I _ _ K2) as [A B]. split; [lia|].
        intros g' sp [G|G]; [injection G as <- <-; cbn; split; [auto|lia]|]. destruct (B _ _ G). cbn. auto.
      - cbn. intros j l [K|[]]. injection K as <- <-. split; [lia|].
        intros g' sp [G|[]]. injection G as <- <-. cbn. split; [auto|lia]. }
    split; [exact P|].
    assert (Q : forall ps i, (sizes ps <= S n)%nat -> 0 <= i <= len -> fine (groupss ps) i (seq_ways ps i)).
    { induction ps as [|p ps IH]; intros i H I; [apply fine_here; auto|].
      cbn [sizes] in H. cbn [Regex_Spec.seq_ways groupss]. pose proof (size_pos p).
      assert (F : fine (groups p) i (ways p i)) by (apply P; [lia|auto]).
      apply fine_and_then; [auto|]. intros j l J. apply IH; [lia|]. destruct (F _ _ J). lia. }
    exact Q.
  Qed.
  Lemma fine_ways p i : 0 <= i <= len -> fine (groups p) i (ways p i).
  Proof. apply (proj1 (fine_all (size p))). auto. Qed.
  Lemma fine_seq ps i : 0 <= i <= len -> fine (groupss ps) i (seq_ways ps i).
  Proof. apply (proj2 (fine_all (sizes ps))). auto. Qed.

  (** ** Repeats whose body matches in at most one way *)
  (** The body of a repeat matches in at most one way at each position, and not the
      empty string. *)
  Definition one_way (sub : list (node C)) : Prop :=
    forall i, 0 <= i <= len ->
      seq_ways sub i = [] \/ exists j l, seq_ways sub i = [(j, l)] /\ i < j.

  Section Rep.
    Variable sub : list (node C).
    Variable lazy : bool.
    Hypothesis ONE : one_way sub.
    Notation B := (seq_ways sub).
    Notation W lo hi := (ways (NRep lazy lo hi sub)).

    Lemma body_bound i j l : 0 <= i <= len -> In (j, l) (B i) -> i < j <= len.
    Proof.
      intros I H. destruct (fine_seq sub i I _ _ H) as [A _].
      destruct (ONE i I) as [E|[j' [l' [E L]]]]; rewrite E in H; [destruct H|].
      destruct H as [H|[]]. injection H as <- <-. lia.
    Qed.

    (** Neither the bound on the number of steps nor the position of the last attempt
        matters. *)
    Lemma repeats_any k k' lo hi last last' i :
      0 <= i <= len -> (lo + Z.to_nat (len - i) < k)%nat -> (lo + Z.to_nat (len - i) < k')%nat ->
      (forall x, last = Some x -> x < i) -> (forall x, last' = Some x -> x < i) ->
      repeats B lazy k lo hi last i = repeats B lazy k' lo hi last' i.
    Proof.
      revert k' lo hi last last' i. induction k as [|k IH]; intros k' lo hi last last' i I K K' L L'; [lia|].
      destruct k' as [|k']; [lia|]. cbn [repeats]. destruct lo as [|lo].
      - assert (E : and_then (B i) (repeats B lazy k 0 (option_map Nat.pred hi) (Some i)) =
                    and_then (B i) (repeats B lazy k' 0 (option_map Nat.pred hi) (Some i))).
        { apply and_then_ext. intros [j l] J. pose proof (body_bound i j l I J). cbn [fst].
          apply IH; try lia; intros x X; injection X as <-; lia. }
        rewrite E.
        assert (Q : match last with Some x => x =? i | None => false end = false).
        { destruct last as [x|]; [|auto]. specialize (L x eq_refl). lia. }
        assert (Q' : match last' with Some x => x =? i | None => false end = false).
        { destruct last' as [x|]; [|auto]. specialize (L' x eq_refl). lia. }
        rewrite Q, Q'. auto.
      - apply and_then_ext. intros [j l] J. pose proof (body_bound i j l I J). cbn [fst].
        apply IH; try lia; intros x X; first [specialize (L x X)|specialize (L' x X)]; lia.
    Qed.

    Lemma rep_succ lo hi i : 0 <= i <= len ->
      W (S lo) hi i = and_then (B i) (W lo (option_map Nat.pred hi)).
    Proof.
      intro I. rewrite ways_rep. replace (S lo + Z.to_nat (len - i) + 2)%nat with (S (lo + Z.to_nat (len - i) + 2)) by lia.
      cbn [repeats]. apply and_then_ext. intros [j l] J. cbn [fst]. rewrite ways_rep.
      pose proof (body_bound i j l I J).
      apply repeats_any; try lia; intros; discriminate.
    Qed.
    Lemma rep_zero hi i : 0 <= i <= len -> hi <> Some O ->
      W O hi i = if lazy then (i, []) :: W 1%nat hi i else W 1%nat hi i ++ [(i, [])].
    Proof.
      intros I H.
      assert (E : W 1%nat hi i = and_then (B i) (repeats B lazy (0 + Z.to_nat (len - i) + 1) O (option_map Nat.pred hi) (Some i))).
      { rewrite rep_succ by auto. apply and_then_ext. intros [j l] J. cbn [fst]. rewrite ways_rep.
        pose proof (body_bound i j l I J).
        apply repeats_any; try lia; intros x X; [discriminate|]. injection X as <-. lia. }
      rewrite E, ways_rep.
      replace (0 + Z.to_nat (len - i) + 2)%nat with (S (0 + Z.to_nat (len - i) + 1)) by lia.
      cbn [repeats]. destruct hi as [[|hi]|]; [congruence|auto|auto].
    Qed.
    Lemma rep_none i : 0 <= i <= len -> W O (Some O) i = [(i, [])].
    Proof.
      intro I. rewrite ways_rep. replace (0 + Z.to_nat (len - i) + 2)%nat with (S (0 + Z.to_nat (len - i) + 1)) by lia.
      cbn [repeats orb]. destruct lazy; auto.
    Qed.

    (** The required repetitions. *)
    Fixpoint iter (k : nat) (i : Z) : option way :=
      match k with
      | O => Some (i, [])
      | S k => match B i with
               | [] => None
               | x :: _ => option_map (addl (snd x)) (iter k (fst x))
               end
      end.
    Lemma iter_bound k i j l : 0 <= i <= len -> iter k i = Some (j, l) -> i + Z.of_nat k <= j <= len.
    Proof.
      revert i j l. induction k as [|k IH]; intros i j l I; cbn [iter].
      - intro E. injection E as <- <-. lia.
      - destruct (B i) as [|[a la] r] eqn:E; [discriminate|].
        assert (i < a <= len) by (apply (body_bound i a la I); rewrite E; cbn; auto).
        cbn [fst snd]. destruct (iter k a) as [[b lb]|] eqn:E2; [|discriminate].
        cbn. intro K. injection K as <- <-. apply IH in E2; lia.
    Qed.
    Definition minus (hi : option nat) (k : nat) : option nat :=
      match hi with None => None | Some h => Some (h - k)%nat end.
    Lemma rep_iter lo hi i : 0 <= i <= len -> match hi with Some h => (lo <= h)%nat | None => True end ->
      W lo hi i = match iter lo i with
                  | None => []
                  | Some x => map (addl (snd x)) (W O (minus hi lo) (fst x))
                  end.
    Proof.
      revert hi i. induction lo as [|lo IH]; intros hi i I H.
      - cbn [iter fst snd]. rewrite map_addl_nil.
        destruct hi as [h|]; cbn [minus]; [rewrite Nat.sub_0_r|]; auto.
      - rewrite rep_succ by auto. cbn [iter].
        destruct (ONE i I) as [E|[j [l [E L]]]]; rewrite E; [auto|].
        assert (J : i < j <= len) by (apply (body_bound i j l I); rewrite E; cbn; auto).
        rewrite and_then_one. cbn [fst snd].
        rewrite IH; [|lia|destruct hi; cbn; [lia|auto]].
        destruct (iter lo j) as [[e le]|]; cbn [option_map map fst snd addl]; [|auto].
        rewrite map_addl_addl. f_equal. f_equal. f_equal.
        destruct hi as [h|]; cbn; [f_equal; lia|auto].
    Qed.
  End Rep.

  (** ** Patterns on which the code is right *)
  Definition at_safe (a : at_code) : Prop :=
    match a with
    | ABegin => multiline = true -> s <> []
    | AEnd => multiline = false -> holds (Z.eqb 10) (at_pos s (len - 1)) = false
    | ABoundary | ANonBoundary =>
        s <> [] /\ holds word (at_pos s 0) = true /\ holds word (at_pos s (len - 1)) = true
    | _ => True
    end.
  Inductive safe : node C -> Prop :=
  | safe_char c : safe (NChar c)
  | safe_rep lazy lo hi sub :
      Forall safe sub -> one_way sub ->
      match hi with Some h => (lo <= h)%nat | None => True end -> safe (NRep lazy lo hi sub)
  | safe_branch alts : alts <> [] -> Forall (Forall safe) alts -> safe (NBranch alts)
  | safe_at a : at_safe a -> safe (NAt a)
  | safe_look ahead positive width sub :
      Forall safe sub -> groupss sub = [] -> ahead = true \/ positive = true ->
      safe (NLook ahead positive width sub)
  | safe_group g sub : (0 < g)%nat -> Forall safe sub -> safe (NGroup g sub)
  | safe_end g b : (0 < g)%nat -> safe (NEnd g b).

  Definition good (ae : bool) (i : Z) (w : way) : bool := ae || negb (fst w =? i).

  (** Filtering after a prefix that ended at [j]. *)
  Lemma find_prefix ae i j l gs X : i <= j -> fine gs j X ->
    find (good ae i) (map (addl l) X) =
    option_map (addl l) (find (good (if j <=? i then ae else true) j) X).
  Proof.
    intros L F. rewrite find_map. f_equal. apply find_ext_in. intros [e le] H.
    destruct (F _ _ H) as [A _]. unfold good. cbn [addl fst].
    destruct (Z.leb_spec j i).
    - replace j with i by lia. auto.
    - cbn [orb]. destruct ae; [auto|]. cbn. lia.
  Qed.

  Definition right (ps : list (node C)) (i : Z) (ae : bool) : Prop :=
    exists N, forall fuel, (N <= fuel)%nat ->
      exists m, mp fuel ps i ae = Ok m /\ stands_o i (find (good ae i) (seq_ways ps i)) m.

  Lemma cont_right fuel rest ae i j l prefix m :
    i <= j -> 0 <= j <= len -> stands i (j, l) prefix ->
    mp fuel rest j (if j <=? i then ae else true) = Ok m ->
    stands_o j (find (good (if j <=? i then ae else true) j) (seq_ways rest j)) m ->
    exists m', continue_with (mp fuel rest) ae prefix = Ok m' /\
               stands_o i (find (good ae i) (map (addl l) (seq_ways rest j))) m'.
  Proof.
    intros L J ST E S1. unfold continue_with. cbv zeta.
    unfold p_isempty. rewrite (stands_start _ _ _ ST), (stands_end _ _ _ ST). cbn [fst].
    rewrite E. cbn [bind]. eexists. split; [reflexivity|].
    rewrite (find_prefix ae i j l (groupss rest)) by (try apply fine_seq; lia).
    destruct (find _ (seq_ways rest j)) as [[e le]|], m as [q|]; cbn in S1 |- *; try tauto.
    apply (stands_add i (j, l) (e, le) prefix q ST S1).
  Qed.

  Lemma bool_le (j i : Z) ae : (if j <=? i then ae else true) = (ae || negb (j <=? i)).
  Proof. destruct (j <=? i), ae; auto. Qed.

  Lemma rep_loop_right sub i k j :
    one_way sub -> 0 <= j <= len ->
    (forall j, 0 <= j <= len -> right sub j true) ->
    exists N, forall fuel, (N <= fuel)%nat -> forall overall l, stands i (j, l) overall ->
      exists om, rep_loop (fun o => mp fuel sub o true) k overall = Ok om /\
                 stands_o i (option_map (addl l) (iter sub k j)) om.
  Proof.
    intros ONE J IH. revert j J. induction k as [|k IHk]; intros j J.
    - exists O. intros fuel _ overall l ST. exists (Some overall). split; [auto|].
      cbn. unfold addl. cbn. auto.
    - destruct (IH j J) as [N1 H1]. cbn [iter].
      destruct (ONE j J) as [E|[j' [l' [E L]]]].
      + exists N1. intros fuel F overall l ST. destruct (H1 fuel F) as [m [Em Sm]].
        cbn [rep_loop]. rewrite (stands_end _ _ _ ST). cbn [fst]. rewrite Em. cbn [bind].
        rewrite E in *. cbn in Sm. destruct m; [tauto|]. exists None. cbn. auto.
      + assert (J' : j < j' <= len) by (apply (body_bound sub ONE j j' l' J); rewrite E; cbn; auto).
        destruct (IHk j' ltac:(lia)) as [N2 H2]. exists (Nat.max N1 N2).
        intros fuel F overall l ST. destruct (H1 fuel ltac:(lia)) as [m [Em Sm]].
        cbn [rep_loop]. rewrite (stands_end _ _ _ ST). cbn [fst]. rewrite Em. cbn [bind].
        rewrite E in *. cbn in Sm. destruct m as [q|]; [|tauto].
        pose proof (stands_add i (j, l) (j', l') overall q ST Sm) as ST'. cbn [snd] in ST'.
        destruct (H2 fuel ltac:(lia) _ _ ST') as [om [E2 S2]]. exists om. split; [exact E2|].
        cbn [fst snd]. destruct (iter sub k j') as [[e le]|]; cbn [option_map] in *; [|auto].
        rewrite addl_addl. auto.
  Qed.

  Lemma good_ret (ae : bool) i m :
    stands_o i (if ae then Some (i, []) else None) m -> stands_o i (find (good ae i) [(i, [])]) m.
  Proof. cbn. unfold good. cbn. rewrite Z.eqb_refl. destruct ae; auto. Qed.

  Lemma mp_cons fuel p rest i ae :
    mp (S fuel) (p :: rest) i ae =
    let continue_matching := continue_with (mp fuel rest) ae in
    let fork_on (expr : bool) (sz : Z) := if expr then continue_matching [Some (i, i + sz)] else Ok None in
    match p with
    | NChar c =>
        if (i <? 0) || (Z.of_nat (length s) <=? i) then Ok None
        else do ch <- char_at s i; fork_on (covers c ch) 1
    | NRep lazy lo hi sub =>
        if match hi with Some hi => (hi <? lo)%nat | None => false end then Ok None
        else
        do om <- rep_loop (fun o => mp fuel sub o true) lo [Some (i, i)];
        match om with
        | None => Ok None
        | Some overall =>
            if match hi with Some hi => (hi <=? lo)%nat | None => false end
            then continue_matching overall
            else
            do short <- (if lazy then continue_matching overall else Ok None);
            match short with
            | Some m => Ok (Some m)
            | None =>
                do more <- mp fuel (NRep lazy 1 (minus hi lo) sub :: rest)
                             (p_end overall) (ae || negb (p_isempty overall));
                match more with
                | Some q => Ok (Some (add_match overall q))
                | None => if lazy then Ok None else continue_matching overall
                end
            end
        end
    | NBranch alts =>
        match alts with
        | [] => Err IndexError
        | first :: others =>
            do m <- mp fuel (first ++ rest) i ae;
            match m with
            | Some m => Ok (Some m)
            | None => match others with
                      | [] => Ok None
                      | _ => mp fuel (NBranch others :: rest) i ae
                      end
            end
        end
    | NAt a =>
        let ends_string := Z.of_nat (length s) - Z.max 0 i <=? 0 in
        match a with
        | ABegin | ABeginStr =>
            do b <- fork_on (i =? 0) 0;
            match b with
            | Some m => Ok (Some m)
            | None => match a with
                      | ABegin => if multiline then do ch <- char_at s (i - 1); fork_on (ch =? 10) 0
                                  else Ok None
                      | _ => Ok None
                      end
            end
        | AEnd | AEndStr =>
            if ends_string then continue_matching [Some (i, i)]
            else match a with
                 | AEnd => if multiline then do ch <- char_at s i; fork_on (ch =? 10) 0
                           else Ok None
                 | _ => Ok None
                 end
        | ABoundary | ANonBoundary =>
            if ends_string || (i =? 0) then
              match a with ABoundary => continue_matching [Some (i, i)] | _ => Ok None end
            else
            do l <- char_at s (i - 1); do r <- char_at s i;
            fork_on (match a with ABoundary => xorb (word l) (word r) | _ => negb (xorb (word l) (word r)) end) 0
        end
    | NLook ahead positive width sub =>
        if negb ahead && (i - Z.of_nat width <? 0) then Ok None
        else
        do m <- mp fuel sub (if ahead then i else i - Z.of_nat width) true;
        if negb (Bool.eqb (match m with Some _ => true | None => false end) positive) then Ok None
        else mp fuel rest i ae
    | NGroup g sub => mp fuel (sub ++ NEnd g i :: rest) i ae
    | NEnd g begin =>
        do m <- continue_matching [Some (i, i)];
        Ok match m with None => None | Some p => Some (set_nth g (Some (begin, i)) p) end
    end.
  Proof. reflexivity. Qed.

  Lemma Nlen : Z.of_nat (length s) = len.
  Proof. reflexivity. Qed.
  Lemma char_at_pos i : 0 <= i < len -> exists c, char_at s i = Ok c /\ at_pos s i = Some c.
  Proof.
    intro I. unfold char_at, at_pos, py_getitem. cbv zeta. rewrite Nlen.
    replace (i <? 0) with false by lia. cbv iota.
    replace ((i <? 0) || (len <=? i)) with false by lia.
    destruct (nth_error s (Z.to_nat i)) as [c|] eqn:E; [eauto|].
    apply nth_error_None in E. unfold Regex_Spec.len in I. lia.
  Qed.

  Lemma NoDup_sub (a b c : list nat) : NoDup (a ++ b ++ c) -> NoDup (a ++ c) /\ NoDup (b ++ c).
  Proof.
    intro H. split.
    - apply NoDup_app_remove_r with (l' := b).
      apply Permutation_NoDup with (l := a ++ b ++ c); [|auto].
      rewrite <- app_assoc. apply Permutation_app_head, Permutation_app_comm.
    - apply NoDup_app_remove_l in H. auto.
  Qed.

  Lemma right_main :
    forall n ps, (sizes ps <= n)%nat -> Forall safe ps -> NoDup (groupss ps) ->
    forall i ae, 0 <= i <= len -> right ps i ae.
  Proof.
    induction n as [|n IH].
    { intros [|p ps] H SF ND i ae I.
      - exists 1%nat. intros [|fuel] F; [lia|]. eexists. split; [reflexivity|].
        apply good_ret. destruct ae; [apply stands_here|exact Logic.I].
      - cbn [sizes] in H. pose proof (size_pos p). lia. }
    intros ps H SF ND.
    (* then on the distance to the end of the string *)
    intros i ae I. remember (Z.to_nat (len - i)) as d eqn:D. revert ps H SF ND i ae I D.
    induction d as [d IHd] using lt_wf_ind. intros ps H SF ND i ae I D.
    destruct ps as [|p rest].
    { exists 1%nat. intros [|fuel] F; [lia|]. eexists. split; [reflexivity|].
      apply good_ret. destruct ae; [apply stands_here|exact Logic.I]. }
    inversion SF as [|? ? SP SR]; subst. cbn [sizes groupss] in H, ND.
    assert (SZ : (sizes rest <= n)%nat) by (pose proof (size_pos p); lia).
    assert (NR : NoDup (groupss rest)) by (apply NoDup_app_remove_l in ND; auto).
    assert (RR : forall j ae, 0 <= j <= len -> right rest j ae) by (intros; apply IH; auto).
    (* going on with the rest after a prefix that matched in one way *)
    assert (CONT : forall j l, i <= j -> 0 <= j <= len ->
      exists N, forall fuel, (N <= fuel)%nat -> forall prefix, stands i (j, l) prefix ->
        exists m, continue_with (mp fuel rest) ae prefix = Ok m /\
                  stands_o i (find (good ae i) (map (addl l) (seq_ways rest j))) m).
    { intros j l L J. destruct (RR j (if j <=? i then ae else true) J) as [N HN].
      exists N. intros fuel F prefix ST. destruct (HN fuel F) as [m [E S1]].
      eapply cont_right; eauto. }
    assert (HERE : exists N, forall fuel, (N <= fuel)%nat ->
        exists m, continue_with (mp fuel rest) ae [Some (i, i)] = Ok m /\
                  stands_o i (find (good ae i) (seq_ways rest i)) m).
    { destruct (CONT i [] ltac:(lia) I) as [N HN]. exists N. intros fuel F.
      destruct (HN fuel F _ (stands_here i)) as [m [E S1]]. rewrite map_addl_nil in S1. eauto. }
    cbn [Regex_Spec.seq_ways]. unfold right. cbn [Regex_Spec.seq_ways].
    assert (SUCC : forall P : nat -> Prop, (exists N, forall fuel, (N <= fuel)%nat -> P (S fuel)) ->
                    exists N, forall fuel, (N <= fuel)%nat -> P fuel).
    { intros P [N HN]. exists (S N). intros [|fuel] F; [lia|]. apply HN. lia. }
    apply SUCC.
    destruct p as [c|lazy lo hi sub|alts|a|ahead pos w sub|g sub|g b].
    - (* a character *)
      destruct (Z.ltb_spec i len) as [LT|GE].
      + destruct (char_at_pos i ltac:(lia)) as [ch [E1 E2]].
        destruct (CONT (i + 1) [] ltac:(lia) ltac:(lia)) as [N HN]. exists N. intros fuel F.
        rewrite mp_cons, Nlen. cbv zeta. replace ((i <? 0) || (len <=? i)) with false by lia.
        rewrite E1. cbn [bind Regex_Spec.ways]. rewrite E2. cbn [holds].
        destruct (covers c ch); [|exists None; cbn; auto].
        rewrite and_then_one. apply HN; [auto|]. apply stands_char.
      + exists O. intros fuel F. rewrite mp_cons, Nlen. cbv zeta.
        replace ((i <? 0) || (len <=? i)) with true by lia. exists None. split; [auto|].
        cbn [Regex_Spec.ways].
        destruct (at_pos s i) eqn:E; [apply len_at in E; lia|]. cbn. auto.
    - (* a repeat *)
      inversion SP as [|? ? ? ? SS ONE HI| | | | |]; subst.
      change (groups (NRep lazy lo hi sub)) with (groupss sub) in ND.
      rewrite size_rep in H.
      assert (SUBR : forall j, 0 <= j <= len -> right sub j true).
      { intros j J. apply IH; auto; [destruct lo; lia|]. apply NoDup_app_remove_r in ND. auto. }
      destruct (rep_loop_right sub i lo i ONE I SUBR) as [N1 H1].
      rewrite (rep_iter sub lazy ONE lo hi i I HI).
      assert (HL : match hi with Some h => (h <? lo)%nat | None => false end = false).
      { destruct hi; [|auto]. apply Nat.ltb_ge. auto. }
      destruct (iter sub lo i) as [[j l]|] eqn:IT.
      2:{ exists N1. intros fuel F. rewrite mp_cons. cbv zeta. rewrite HL.
          destruct (H1 fuel F _ [] (stands_here i)) as [om [E S1]]. rewrite E. cbn [bind].
          cbn in S1. destruct om; [tauto|]. exists None. cbn. auto. }
      pose proof (iter_bound sub ONE lo i j l I IT) as J.
      destruct (CONT j l ltac:(lia) ltac:(lia)) as [N2 H2].
      cbn [fst snd]. rewrite and_then_map.
      destruct (match hi with Some h => (h <=? lo)%nat | None => false end) eqn:HE.
      { (* no more repetitions allowed *)
        exists (Nat.max N1 N2). intros fuel F. rewrite mp_cons. cbv zeta. rewrite HL.
        destruct (H1 fuel ltac:(lia) _ [] (stands_here i)) as [om [E S1]]. rewrite E. cbn [bind].
        cbn [option_map] in S1. destruct om as [overall|]; [|destruct S1]. cbn [stands_o] in S1. rewrite addl_nil in S1. rewrite HE.
        replace (minus hi lo) with (Some O).
        2:{ destruct hi as [h|]; [|discriminate]. apply Nat.leb_le in HE. cbn. f_equal. lia. }
        rewrite rep_none by (auto; lia). rewrite and_then_one, map_addl_nil. apply H2; [lia|auto]. }
      assert (MZ : minus hi lo <> Some O).
      { destruct hi as [h|]; cbn; [|discriminate]. apply Nat.leb_gt in HE. intro X. injection X. lia. }
      rewrite rep_zero by (auto; lia).
      assert (MORE : right (NRep lazy 1 (minus hi lo) sub :: rest) j (if j <=? i then ae else true)).
      { assert (SF' : Forall safe (NRep lazy 1 (minus hi lo) sub :: rest)).
        { constructor; [|auto]. constructor; auto. destruct hi as [h|]; cbn; [|auto].
          apply Nat.leb_gt in HE. lia. }
        destruct lo as [|lo].
        - apply IH; [|auto|auto|lia]. cbn [sizes]. rewrite size_rep. lia.
        - eapply IHd with (m := Z.to_nat (len - j)); auto; try lia. }
      destruct MORE as [N3 H3].
      set (k := seq_ways rest) in *.
      assert (BJ : 0 <= j <= len) by lia.
      assert (Fj : fine (groupss (NRep lazy 1 (minus hi lo) sub :: rest)) j
                     (and_then (ways (NRep lazy 1 (minus hi lo) sub) j) k)).
      { exact (fine_seq (NRep lazy 1 (minus hi lo) sub :: rest) j BJ). }
      exists (Nat.max N1 (Nat.max N2 N3)). intros fuel F. rewrite mp_cons. cbv zeta. rewrite HL.
      destruct (H1 fuel ltac:(lia) _ [] (stands_here i)) as [om [E S1]]. rewrite E. cbn [bind].
      cbn [option_map] in S1. destruct om as [overall|]; [|destruct S1]. cbn [stands_o] in S1. rewrite addl_nil in S1. rewrite HE.
      destruct (H2 fuel ltac:(lia) _ S1) as [mc [Ec Sc]].
      destruct (H3 fuel ltac:(lia)) as [mm [Em Sm]].
      cbn [Regex_Spec.seq_ways] in Sm. fold k in Sm.
      unfold p_isempty. rewrite (stands_start _ _ _ S1), (stands_end _ _ _ S1). cbn [fst].
      rewrite <- bool_le. rewrite Ec, Em.
      assert (FM : find (good ae i) (map (addl l) (and_then (ways (NRep lazy 1 (minus hi lo) sub) j) k)) =
                   option_map (addl l) (find (good (if j <=? i then ae else true) j)
                     (and_then (ways (NRep lazy 1 (minus hi lo) sub) j) k))).
      { eapply find_prefix; [lia|exact Fj]. }
      assert (SMM : forall q, mm = Some q ->
                stands_o i (find (good ae i) (map (addl l) (and_then (ways (NRep lazy 1 (minus hi lo) sub) j) k)))
                  (Some (add_match overall q))).
      { intros q ->. rewrite FM. destruct (find (good (if j <=? i then ae else true) j) _) as [[e le]|]; cbn [option_map stands_o] in Sm |- *; [|tauto].
        apply (stands_add i (j, l) (e, le) overall q S1 Sm). }
      assert (SMN : mm = None ->
                find (good ae i) (map (addl l) (and_then (ways (NRep lazy 1 (minus hi lo) sub) j) k)) = None).
      { intros ->. rewrite FM. destruct (find (good (if j <=? i then ae else true) j) _) as [[e le]|]; cbn [option_map stands_o] in Sm |- *; [tauto|auto]. }
      assert (SCN : forall o : option way, stands_o i o mc ->
                 mc = None -> o = None).
      { intros o S' ->. destruct o; cbn in S'; tauto. }
      destruct lazy.
      + (* lazy *)
        rewrite and_then_cons. cbn [fst snd]. rewrite map_addl_nil, map_app, find_app.
        destruct mc as [q|]; cbn [bind].
        * exists (Some q). split; [auto|].
          destruct (find (good ae i) (map (addl l) (k j))); cbn [stands_o] in Sc |- *; [auto|tauto].
        * rewrite (SCN _ Sc eq_refl).
          destruct mm as [q|]; [exists (Some (add_match overall q)); split; [auto|apply SMM; auto]|].
          exists None. split; [auto|]. rewrite SMN; auto. exact Logic.I.
      + (* greedy *)
        rewrite and_then_app, map_app, find_app, and_then_one, map_addl_nil. cbn [bind].
        destruct mm as [q|].
        * exists (Some (add_match overall q)). split; [auto|].
          specialize (SMM q eq_refl). revert SMM. destruct (find _ (map (addl l) (and_then _ k))); cbn [stands_o]; intro SMM; [auto|destruct SMM].
        * rewrite SMN by auto. exists mc. auto.
    - (* alternatives *)
      inversion SP as [| |? NE AS| | | |]; subst.
      destruct alts as [|first others]; [congruence|].
      inversion AS as [|? ? A1 A2]; subst.
      rewrite size_branch in H. rewrite groups_branch, <- app_assoc in ND.
      destruct (NoDup_sub _ _ _ ND) as [ND1 ND2].
      assert (R1 : right (first ++ rest) i ae).
      { apply IH; auto; [rewrite sizes_app; lia|apply Forall_app; auto|rewrite groupss_app; auto]. }
      destruct R1 as [N1 H1].
      assert (R2 : others <> [] -> right (NBranch others :: rest) i ae).
      { intro NE'. apply IH; auto; [cbn [sizes]; lia|]. constructor; [constructor|]; auto. }
      assert (R3 : exists N, forall fuel, (N <= fuel)%nat -> exists m,
                 match others with [] => Ok None | _ => mp fuel (NBranch others :: rest) i ae end = Ok m /\
                 stands_o i (find (good ae i) (and_then (ways (NBranch others) i) (seq_ways rest))) m).
      { destruct others as [|o os].
        - exists O. intros. exists None. cbn. auto.
        - apply R2. discriminate. }
      destruct R3 as [N2 H2]. exists (Nat.max N1 N2). intros fuel F.
      rewrite mp_cons. cbv zeta.
      destruct (H1 fuel ltac:(lia)) as [m1 [E1 S1]]. destruct (H2 fuel ltac:(lia)) as [m2 [E2 S2]].
      rewrite E1. cbn [bind]. rewrite ways_branch_cons, and_then_app, find_app, <- seq_app.
      destruct m1 as [q|].
      + exists (Some q). split; [auto|].
        destruct (find (good ae i) (seq_ways (first ++ rest) i)); cbn [stands_o] in S1 |- *; [auto|tauto].
      + rewrite E2. exists m2. split; [auto|].
        destruct (find (good ae i) (seq_ways (first ++ rest) i)); cbn in S1; [tauto|auto].
    - (* positions *)
      inversion SP as [| | |? AT| | |]; subst.
      destruct HERE as [N HN]. exists N. intros fuel F. rewrite mp_cons, Nlen. cbv zeta.
      destruct (HN fuel F) as [m [E S1]].
      assert (A0 : forall k, k = 0 -> continue_with (mp fuel rest) ae [Some (i, i + k)] = Ok m).
      { intros k ->. rewrite Z.add_0_r. auto. }
      cbn [Regex_Spec.ways].
      assert (T : at_holds a i = true ->
                  find (good ae i) (and_then (if at_holds a i then [(i, [])] else []) (seq_ways rest)) =
                  find (good ae i) (seq_ways rest i)).
      { intros ->. rewrite and_then_one, map_addl_nil. auto. }
      assert (NT : at_holds a i = false ->
                  find (good ae i) (and_then (if at_holds a i then [(i, [])] else []) (seq_ways rest)) = None).
      { intros ->. auto. }
      assert (EN : len - Z.max 0 i <=? 0 = (i =? len)) by lia.
      rewrite EN.
      destruct a; cbn [at_safe] in AT.
      + (* ^ *)
        rewrite !A0 by auto.
        destruct (Z.eqb_spec i 0) as [->|NZ].
        * rewrite T by reflexivity. cbn [bind].
          destruct m as [q|]; [exists (Some q); auto|].
          destruct multiline; [|exists None; auto].
          assert (exists c, char_at s (0 - 1) = Ok c) as [c EC].
          { unfold char_at, py_getitem. cbv zeta. rewrite Nlen.
            assert (0 < len). { specialize (AT eq_refl). unfold Regex_Spec.len. destruct s; [congruence|cbn; lia]. }
            change (0 - 1 <? 0) with true. cbv iota.
            replace ((0 - 1 + len <? 0) || (len <=? 0 - 1 + len)) with false by lia.
            destruct (nth_error s (Z.to_nat (0 - 1 + len))) eqn:EE; [eauto|].
            apply nth_error_None in EE. unfold Regex_Spec.len in *. lia. }
          rewrite EC. cbn [bind]. destruct (c =? 10); exists None; auto.
        * cbn [bind]. unfold Regex_Spec.at_holds in T, NT |- *. cbv zeta in *.
          replace (i =? 0) with false in * by lia. cbn [orb] in *.
          destruct multiline; [|exists None; rewrite NT by auto; split; [auto|exact Logic.I]].
          destruct (char_at_pos (i - 1) ltac:(lia)) as [c [EC EP]].
          rewrite EC. cbn [bind]. rewrite EP in *. cbn [holds andb] in *.
          rewrite (Z.eqb_sym c 10).
          destruct (10 =? c); [rewrite T by auto; eauto|exists None; rewrite NT by auto; split; [auto|exact Logic.I]].
      + rewrite !A0 by auto. unfold Regex_Spec.at_holds in *. cbv zeta in *.
        destruct (i =? 0); cbn [bind] in *.
        * rewrite T by auto. destruct m as [q|]; [exists (Some q); auto|exists None; auto].
        * exists None. rewrite NT by auto. split; [auto|exact Logic.I].
      + (* $ *)
        destruct (Z.eqb_spec i len) as [IE|NE].
        * rewrite T by (unfold Regex_Spec.at_holds; cbv zeta; replace (i =? len) with true by lia; auto). eauto.
        * rewrite !A0 by auto. unfold Regex_Spec.at_holds in *. cbv zeta in *.
          replace (i =? len) with false in * by lia. cbn [orb] in *.
          destruct multiline.
          -- destruct (char_at_pos i ltac:(lia)) as [c [EC EP]].
             rewrite EC. cbn [bind]. rewrite EP in *. cbn [holds] in *. rewrite (Z.eqb_sym c 10).
             destruct (10 =? c); [rewrite T by auto; eauto|exists None; rewrite NT by auto; split; [auto|exact Logic.I]].
          -- exists None. split; [auto|]. rewrite NT; [exact Logic.I|].
             destruct (Z.eqb_spec i (len - 1)) as [->|]; [|auto]. rewrite AT by auto. auto.
      + unfold Regex_Spec.at_holds in *. cbv zeta in *.
        destruct (i =? len); [rewrite T by auto; eauto|exists None; rewrite NT by auto; split; [auto|exact Logic.I]].
      + (* \b *)
        destruct AT as [A1 [A2 A3]].
        assert (LP : 0 < len). { unfold Regex_Spec.len. destruct s; [congruence|cbn; lia]. }
        unfold Regex_Spec.at_holds in *. cbv zeta in *. replace (len =? 0) with false in * by lia.
        cbn [negb andb] in *.
        destruct (Z.eqb_spec i len) as [IE|NE]; [|destruct (Z.eqb_spec i 0) as [IE|NZ]]; cbn [orb].
        * rewrite T; [eauto|]. replace (at_pos s i) with (@None Z).
          2:{ destruct (at_pos s i) eqn:Q; [apply len_at in Q; lia|auto]. }
          rewrite IE, A3. auto.
        * rewrite T; [eauto|]. replace (at_pos s (i - 1)) with (@None Z).
          2:{ destruct (at_pos s (i - 1)) eqn:Q; [apply len_at in Q; lia|auto]. }
          rewrite IE, A2. auto.
        * destruct (char_at_pos (i - 1) ltac:(lia)) as [c1 [EC1 EP1]].
          destruct (char_at_pos i ltac:(lia)) as [c2 [EC2 EP2]].
          rewrite EC1, EC2. cbn [bind]. rewrite EP1, EP2 in *. cbn [holds] in *. rewrite !A0 by auto.
          destruct (xorb (word c1) (word c2)); [rewrite T by auto; eauto|exists None; rewrite NT by auto; split; [auto|exact Logic.I]].
      + (* \B *)
        destruct AT as [A1 [A2 A3]].
        assert (LP : 0 < len). { unfold Regex_Spec.len. destruct s; [congruence|cbn; lia]. }
        unfold Regex_Spec.at_holds in *. cbv zeta in *. replace (len =? 0) with false in * by lia.
        cbn [negb andb] in *.
        destruct (Z.eqb_spec i len) as [IE|NE]; [|destruct (Z.eqb_spec i 0) as [IE|NZ]]; cbn [orb].
        * exists None. split; [auto|]. rewrite NT; [exact Logic.I|]. replace (at_pos s i) with (@None Z).
          2:{ destruct (at_pos s i) eqn:Q; [apply len_at in Q; lia|auto]. }
          rewrite IE, A3. auto.
        * exists None. split; [auto|]. rewrite NT; [exact Logic.I|]. replace (at_pos s (i - 1)) with (@None Z).
          2:{ destruct (at_pos s (i - 1)) eqn:Q; [apply len_at in Q; lia|auto]. }
          rewrite IE, A2. auto.
        * destruct (char_at_pos (i - 1) ltac:(lia)) as [c1 [EC1 EP1]].
          destruct (char_at_pos i ltac:(lia)) as [c2 [EC2 EP2]].
          rewrite EC1, EC2. cbn [bind]. rewrite EP1, EP2 in *. cbn [holds] in *. rewrite !A0 by auto.
          destruct (xorb (word c1) (word c2)); cbn [negb] in *; [exists None; rewrite NT by auto; split; [auto|exact Logic.I]|rewrite T by auto; eauto].
    - (* lookaround *)
      inversion SP as [| | | |? ? ? ? SS GS DIR| |]; subst.
      rewrite size_look in H.
      destruct (RR i ae I) as [N1 H1].
      rewrite ways_look. cbv zeta.
      destruct ahead.
      + assert (RS : right sub i true) by (apply IH; auto; [lia|rewrite GS; constructor]).
        destruct RS as [N2 H2]. exists (Nat.max N1 N2). intros fuel F. rewrite mp_cons. cbv zeta.
        cbn [negb andb]. destruct (H1 fuel ltac:(lia)) as [m1 [E1 S1]].
        destruct (H2 fuel ltac:(lia)) as [m2 [E2 S2]]. rewrite E2. cbn [bind].
        replace (i <? 0) with false by lia. pose proof (fine_seq sub i I) as FS. rewrite GS in FS.
        destruct (seq_ways sub i) as [|[e l] r]; cbn in S2.
        * destruct m2; [tauto|]. destruct pos; cbn [negb Bool.eqb]; [exists None; cbn; auto|].
          rewrite and_then_one, map_addl_nil. eauto.
        * destruct m2; [|tauto].
          assert (l = []) as ->.
          { destruct l as [|[g sp] l]; [auto|]. destruct (FS e ((g, sp) :: l)) as [_ Q]; [cbn; auto|].
            destruct (Q g sp) as [[] _]. cbn; auto. }
          destruct pos; cbn [negb Bool.eqb]; [|exists None; cbn; auto].
          rewrite and_then_one, map_addl_nil. eauto.
      + destruct DIR as [DIR|DIR]; [discriminate|]. subst pos.
        destruct (Z.ltb_spec (i - Z.of_nat w) 0) as [LT|GE].
        * exists O. intros fuel F. rewrite mp_cons. cbv zeta. cbn [negb andb].
          replace (i - Z.of_nat w <? 0) with true by lia. exists None. cbn. auto.
        * assert (IW : 0 <= i - Z.of_nat w <= len) by lia.
          assert (RS : right sub (i - Z.of_nat w) true) by (apply IH; auto; [lia|rewrite GS; constructor]).
          destruct RS as [N2 H2]. exists (Nat.max N1 N2). intros fuel F. rewrite mp_cons. cbv zeta.
          cbn [negb andb]. replace (i - Z.of_nat w <? 0) with false by lia.
          destruct (H1 fuel ltac:(lia)) as [m1 [E1 S1]].
          destruct (H2 fuel ltac:(lia)) as [m2 [E2 S2]]. rewrite E2. cbn [bind].
          pose proof (fine_seq sub _ IW) as FS. rewrite GS in FS.
          destruct (seq_ways sub (i - Z.of_nat w)) as [|[e l] r]; cbn in S2.
          -- destruct m2; [tauto|]. cbn [negb Bool.eqb]. exists None; cbn; auto.
          -- destruct m2; [|tauto].
             assert (l = []) as ->.
             { destruct l as [|[g sp] l]; [auto|]. destruct (FS e ((g, sp) :: l)) as [_ Q]; [cbn; auto|].
               destruct (Q g sp) as [[] _]. cbn; auto. }
             cbn [negb Bool.eqb]. rewrite and_then_one, map_addl_nil. eauto.
    - (* a group *)
      inversion SP as [| | | | |? ? G SS|]; subst. rewrite size_group in H.
      change (groups (NGroup g sub)) with (g :: groupss sub) in ND.
      assert (R1 : right (sub ++ NEnd g i :: rest) i ae).
      { apply IH; auto.
        - rewrite sizes_app. cbn [sizes size]. lia.
        - apply Forall_app. split; [auto|]. constructor; [constructor; auto|auto].
        - rewrite groupss_app. cbn [groupss groups]. 
          eapply Permutation_NoDup; [|exact ND]. cbn. apply Permutation_middle. }
      destruct R1 as [N1 H1]. exists N1. intros fuel F. rewrite mp_cons. cbv zeta.
      destruct (H1 fuel F) as [m [E S1]]. exists m. split; [auto|].
      rewrite ways_group. rewrite seq_app in S1. cbn [Regex_Spec.seq_ways Regex_Spec.ways] in S1.
      replace (and_then (map (fun x : Z * list (nat * (Z * Z)) => (fst x, (g, (i, fst x)) :: snd x)) (seq_ways sub i)) (seq_ways rest))
        with (and_then (seq_ways sub i) (fun j => and_then [(j, [(g, (i, j))])] (seq_ways rest))); [auto|].
      clear. induction (seq_ways sub i) as [|[j l] w IH]; [auto|].
      cbn [map]. rewrite !and_then_cons, IH. f_equal. cbn [fst snd].
      change (and_then [] (seq_ways rest)) with (@nil way). rewrite app_nil_r, map_addl_addl. auto.
    - (* the end of a group *)
      inversion SP as [| | | | | |? ? G]; subst.
      change (groups (NEnd g b)) with [g] in ND.
      destruct HERE as [N HN]. exists N. intros fuel F. rewrite mp_cons. cbv zeta.
      destruct (HN fuel F) as [m [E S1]]. rewrite E. cbn [bind]. eexists. split; [reflexivity|].
      cbn [Regex_Spec.ways]. rewrite and_then_one.
      rewrite find_map. change (fun x => good ae i (addl [(g, (b, i))] x)) with (good ae i).
      pose proof (fine_seq rest i I) as FR.
      destruct (find (good ae i) (seq_ways rest i)) as [[e le]|] eqn:FE; cbn in S1 |- *.
      + destruct m as [q|]; [|tauto]. destruct S1 as [S1 S2]. split.
        * rewrite nth_set. destruct g; [lia|]. auto.
        * intros g' G'. rewrite nth_set. cbn [snd]. unfold addl; cbn [snd].
          rewrite captured_app. cbn [captured].
          destruct (Nat.eqb_spec g' g) as [->|NE].
          -- rewrite captured_none; [auto|]. intros sp K. apply find_some in FE. destruct FE as [FE _].
             destruct (FR _ _ FE) as [_ Q]. apply Q in K. destruct K as [K _].
             inversion ND; subst. tauto.
          -- rewrite S2 by auto. cbn. destruct (captured g' le); auto.
      + destruct m; [tauto|auto].
  Qed.

  Theorem match_right ps i ae :
    Forall safe ps -> NoDup (groupss ps) -> 0 <= i <= len -> right ps i ae.
  Proof. intros. eapply right_main; eauto. Qed.
End P.
