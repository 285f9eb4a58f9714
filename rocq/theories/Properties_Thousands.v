(** C180: thousands separators. *)
From Coq Require Import ZArith List Bool Lia ZifyBool ZifyNat.
From Verif Require Import Py Thousands_Model Thousands_Spec.
Import ListNotations.
Open Scope Z_scope.

(** [gls] and [again] are what is left of a grouping after [i] groups *)
Definition left_of (grouping : list Z) (i : nat) (gls : list Z) (again : option Z) : Prop :=
  match next gls again with
  | None => forall j, (i <= j)%nat -> length_at grouping j None
  | Some _ => (forall k g, nth_error gls k = Some g -> length_at grouping (i + k) (Some g)) /\
              (forall k, (length gls <= k)%nat -> length_at grouping (i + k) again)
  end.
Definition positive (gls : list Z) (again : option Z) : Prop :=
  Forall (fun g => 0 < g) gls /\ (forall g, again = Some g -> 0 < g).
Lemma take_group : forall gl (d : text), 1 <= gl ->
  length (repeat zero (Z.to_nat (gl - Z.of_nat (length d))) ++ skipn (length d - Z.to_nat gl) d) = Z.to_nat gl.
Proof. intros gl d H. rewrite app_length, repeat_length, skipn_length. lia. Qed.

Definition result (grouping : list Z) (sep : Z) (i : nat) (d : text) (mw : Z) (gs : list text) : Prop :=
  grouped grouping i gs /\ mw <= width sep gs /\
  exists k, concat (rev gs) = repeat zero k ++ d /\
    (k = O \/ (d = [] /\ gs = [[zero]]) \/ shorter sep gs < mw).

Lemma loop_right : forall grouping sep, 0 <= sep -> forall fuel gls again d mw i,
  left_of grouping i gls again -> positive gls again ->
  (length d + Z.to_nat mw + length gls < fuel)%nat ->
  exists gs, loop fuel sep gls again d mw = Ok gs /\ result grouping sep i d mw gs.
Proof.
  intros grouping sep Sep. induction fuel as [|fuel IH]; intros gls again d mw i L P F; [lia|].
  cbn [loop]. unfold left_of in L. destruct (next gls again) as [[g gls']|] eqn:N.
  2:{ set (gl := Z.max (Z.max (Z.of_nat (length d)) mw) 1).
      assert (T := take_group gl d ltac:(lia)).
      assert (K : (length d - Z.to_nat gl = 0)%nat) by lia. rewrite K in *. cbn [skipn] in *.
      eexists. split; [reflexivity|]. split; [|split].
      - apply GLast with (n := None); [apply L; lia| |discriminate].
        intro E. rewrite E in T. cbn [length] in T. lia.
      - cbn [width]. rewrite T. lia.
      - exists (Z.to_nat (gl - Z.of_nat (length d))). cbn [rev concat app]. rewrite app_nil_r. split; [reflexivity|].
        cbn [shorter]. rewrite T. destruct (Z.leb_spec mw (Z.of_nat (length d))).
        + destruct d as [|c d]; [|left; cbn [length] in *; lia]. right. left. split; [reflexivity|].
          assert (gl = 1) as -> by (cbn [length] in *; lia). reflexivity.
        + destruct (Z.leb_spec mw 0); [lia|]. right. right. lia. }
  assert (G0 : 0 < g /\ length_at grouping i (Some g) /\ positive gls' again /\
               left_of grouping (S i) gls' again /\ (length gls' <= length gls)%nat).
  { destruct P as [P1 P2]. destruct L as [L1 L2]. unfold next in N. destruct gls as [|x gls].
    - destruct again as [a|]; [|discriminate]. injection N as -> <-. split; [apply P2; reflexivity|].
      split; [replace i with (i + 0)%nat by lia; apply L2; cbn [length]; lia|]. split; [split; assumption|].
      split; [|lia]. unfold left_of. cbn [next]. split; [intros [|k] y Y; discriminate|].
      intros k _. replace (S i + k)%nat with (i + S k)%nat by lia. apply L2. cbn [length]. lia.
    - injection N as -> ->. inversion P1; subst. split; [assumption|].
      split; [replace i with (i + 0)%nat by lia; apply L1; reflexivity|]. split; [split; assumption|].
      split; [|cbn [length]; lia]. unfold left_of.
      assert (A : forall k, (length gls' <= k)%nat -> length_at grouping (S i + k) again).
      { intros k K. replace (S i + k)%nat with (i + S k)%nat by lia. apply L2. cbn [length]. lia. }
      destruct (next gls' again) as [p|] eqn:N'.
      + split; [|exact A]. intros k y Y. replace (S i + k)%nat with (i + S k)%nat by lia. apply L1. exact Y.
      + unfold next in N'. destruct gls'; [|discriminate]. destruct again; [discriminate|].
        intros j J. replace j with (S i + (j - S i))%nat by lia. apply A. cbn [length]. lia. }
  destruct G0 as [Gp [Gl [P' [L' Gn]]]].
  destruct (Z.leb_spec g 0) as [X|_]; [lia|].
  set (gl := Z.min (Z.max (Z.max (Z.of_nat (length d)) mw) 1) g).
  assert (T := take_group gl d ltac:(lia)). assert (GL : 1 <= gl) by lia.
  set (group := repeat zero (Z.to_nat (gl - Z.of_nat (length d))) ++ skipn (length d - Z.to_nat gl) d) in *.
  set (d' := firstn (length d - Z.to_nat gl) d).
  assert (D' : length d' = (length d - Z.to_nat gl)%nat) by (unfold d'; rewrite firstn_length; lia).
  assert (Split : d = d' ++ skipn (length d - Z.to_nat gl) d) by (symmetry; apply firstn_skipn).
  assert (Stop : d' = [] -> mw - gl <= 0 -> result grouping sep i d mw [group]).
  { intros E M. assert (K : (length d - Z.to_nat gl = 0)%nat) by (rewrite <- D', E; reflexivity).
    split; [|split].
    - apply GLast with (n := Some g); [exact Gl| |].
      + intro Z0. rewrite Z0 in T. cbn [length] in T. lia.
      + intros m Em. injection Em as <-. rewrite T. lia.
    - cbn [width]. rewrite T. lia.
    - exists (Z.to_nat (gl - Z.of_nat (length d))). cbn [rev concat app]. rewrite app_nil_r.
      split; [unfold group; rewrite K; reflexivity|]. cbn [shorter]. rewrite T.
      destruct (Z.leb_spec mw (Z.of_nat (length d))).
      + destruct d as [|c d0] eqn:Ed; [|left; cbn [length] in *; lia]. right. left. split; [reflexivity|].
        assert (E1 : gl = 1) by (cbn [length] in *; lia). unfold group. rewrite E1. reflexivity.
      + destruct (Z.leb_spec mw 0); [lia|]. right. right. lia. }
  assert (Go : d' <> [] \/ 0 < mw - gl ->
    exists gs, (do r <- loop fuel sep gls' again d' (mw - gl - sep); Ok (group :: r)) = Ok gs /\ result grouping sep i d mw gs).
  { intro C. assert (Eg : gl = g).
    { destruct C as [C|C]; [|lia]. destruct d' as [|c d'']; [contradiction|]. cbn [length] in D'. lia. }
    assert (D1 : d' <> [] -> (length d' < length d)%nat).
    { intro C'. destruct d' as [|c d'']; [contradiction|]. cbn [length] in *. lia. }
    assert (Dz : d' = [] \/ d' <> []) by (destruct d'; [left; reflexivity|right; discriminate]).
    destruct (IH gls' again d' (mw - gl - sep) (S i) L' P') as [r [E [R1 [R2 [k [R3 R4]]]]]].
    { assert (M0 : (length d' < length d)%nat \/ (length d' <= length d)%nat /\ 0 < mw - gl) by (destruct C as [C|C]; [left; exact (D1 C)|right; lia]).
      clearbody gl d'. clear - M0 F Gn GL Sep. lia. }
    exists (group :: r). rewrite E. split; [reflexivity|].
    assert (Nr : r <> []) by (inversion R1; discriminate).
    split; [|split].
    - apply GMore with (m := g); [exact Gl|rewrite T; lia|exact R1].
    - cbn [width]. destruct r as [|x r]; [contradiction|]. rewrite T. lia.
    - cbn [rev]. rewrite concat_app. cbn [concat]. rewrite app_nil_r, R3. unfold group.
      destruct Dz as [Dz|Dz].
      + (* the digits are used up *)
        assert (0 < mw - gl) as M by (destruct C; [contradiction|assumption]).
        exists (k + Z.to_nat (gl - Z.of_nat (length d)))%nat. split.
        * rewrite Dz in *. rewrite app_nil_r, repeat_app, <- app_assoc. do 2 f_equal. symmetry. exact Split.
        * right. right. destruct r as [|x r]; [contradiction|]. destruct R4 as [R4|[[R4 R5]|R4]].
          -- exfalso. subst k. rewrite Dz in R3. cbn [repeat app] in R3.
             assert (Ne : forall j l, grouped grouping j l -> concat (rev l) <> []).
             { clear. intros j l H. induction H as [j g n _ H _|j g r m _ _ H IH].
               - cbn [rev concat app]. rewrite app_nil_r. exact H.
               - cbn [rev]. rewrite concat_app. intro E. apply app_eq_nil in E. destruct E as [E _]. contradiction. }
             exact (Ne _ _ R1 R3).
          -- injection R5 as -> ->. change (Z.of_nat (length group) < mw). rewrite T. lia.
          -- assert (Sh : shorter sep (group :: x :: r) = Z.of_nat (length group) + sep + shorter sep (x :: r) \/
                          (r = [] /\ length x = 1%nat /\ shorter sep (group :: x :: r) = Z.of_nat (length group))).
             { destruct r as [|y r]; [|left; destruct x as [|? [|? ?]]; reflexivity].
               destruct x as [|c [|c2 x]]; [left; reflexivity|right; auto|left; reflexivity]. }
             change (shorter sep (group :: x :: r) < mw). destruct Sh as [Sh|[_ [_ Sh]]]; rewrite Sh, T; lia.
      + (* digits are left, so this group is all digits *)
        assert (K0 : Z.to_nat (gl - Z.of_nat (length d)) = O \/ d' = []).
        { destruct (Z.leb_spec gl (Z.of_nat (length d))); [left; lia|right]. destruct d'; [reflexivity|cbn [length] in D'; lia]. }
        destruct K0 as [K0|K0].
        * exists k. split; [rewrite K0; cbn [repeat app]; rewrite <- app_assoc; f_equal; symmetry; exact Split|].
          destruct R4 as [R4|[[R4 R5]|R4]]; [left; exact R4| |].
          -- right. right. subst r. change (Z.of_nat (length group) < mw). rewrite T.
             destruct C as [C|C]; [contradiction|]. lia.
          -- destruct r as [|x r]; [contradiction|].
             destruct (Nat.eq_dec k 0) as [Kz|Kz]; [left; exact Kz|]. right. right.
             assert (Sh : shorter sep (group :: x :: r) = Z.of_nat (length group) + sep + shorter sep (x :: r) \/
                          (r = [] /\ length x = 1%nat /\ shorter sep (group :: x :: r) = Z.of_nat (length group))).
             { destruct r as [|y r]; [|left; destruct x as [|? [|? ?]]; reflexivity].
               destruct x as [|c [|c2 x]]; [left; reflexivity|right; auto|left; reflexivity]. }
             change (shorter sep (group :: x :: r) < mw). destruct Sh as [Sh|[Er [Ex Sh]]]; rewrite Sh, T; [lia|].
             subst r. assert (Len : length (concat (rev [x])) = 1%nat) by (cbn [rev concat app]; rewrite app_nil_r; exact Ex).
             rewrite R3, app_length, repeat_length in Len. assert (length d' = 0%nat) as D0 by lia.
             destruct d'; [|discriminate D0]. destruct C as [C|C]; [contradiction|]. lia.
        * contradiction. }
  destruct d' as [|c d''] eqn:Ed.
  - destruct (Z.leb_spec (mw - gl) 0) as [M|M]; [exists [group]; split; [reflexivity|apply Stop; [reflexivity|exact M]]|].
    apply Go. right. lia.
  - apply Go. left. discriminate.
Qed.

(** The groupings that localeconv gives: nothing, or positive lengths that end with 0 or CHAR_MAX *)
Inductive usual : list Z -> Prop :=
| UNone : usual []
| UAgain : forall l, l <> [] -> Forall (fun g => 0 < g < 127) l -> usual (l ++ [0])
| UEnd : forall l, Forall (fun g => 0 < g < 127) l -> usual (l ++ [127]).
Lemma lengths_right : forall grouping, usual grouping -> exists gls again,
  group_lengths grouping = Ok (gls, again) /\ left_of grouping 0 gls again /\ positive gls again /\ (length gls <= length grouping)%nat.
Proof.
  intros grouping [|l N P|l P].
  - exists [], None. split; [reflexivity|]. split; [intros j _; constructor|]. split; [|cbn; lia]. split; [constructor|discriminate].
  - destruct (exists_last N) as [l0 [g ->]]. assert (G : 0 < g).
    { rewrite Forall_app in P. destruct P as [_ P]. inversion P. lia. }
    exists (l0 ++ [g]), (Some g). unfold group_lengths. rewrite rev_app_distr. cbn [rev app]. rewrite rev_app_distr. cbn [rev app Z.eqb].
    rewrite removelast_last. split; [reflexivity|]. split; [|split; [|rewrite !app_length; cbn [length]; lia]].
    + assert (E : exists p, next (l0 ++ [g]) (Some g) = Some p) by (destruct l0; eexists; reflexivity).
      unfold left_of. destruct E as [p ->]. split.
      * intros k x X. apply LGiven. exact X.
      * intros k K. rewrite <- app_assoc. cbn [app]. apply LAgain. rewrite app_length in K. cbn [length] in K. lia.
    + split; [|intros x X; injection X as <-; exact G]. apply Forall_forall. intros x X. rewrite Forall_forall in P. apply P in X. lia.
  - exists l, None. unfold group_lengths. rewrite rev_app_distr. cbn [rev app]. rewrite removelast_last.
    split; [destruct (rev l); reflexivity|]. split; [|split; [|rewrite app_length; lia]].
    + unfold left_of. destruct l as [|g l]; cbn [next].
      * intros j _. apply (LEnd [] j). cbn. lia.
      * split; [intros k x X; apply LGiven; exact X|]. intros k K. apply LEnd. exact K.
    + split; [|discriminate]. apply Forall_forall. intros x X. rewrite Forall_forall in P. apply P in X. lia.
Qed.
Lemma join_width : forall sep gs, Z.of_nat (length (join sep (rev gs))) = width (Z.of_nat (length sep)) gs.
Proof.
  intro sep.
  assert (J : forall l g, l <> [] -> join sep (l ++ [g]) = join sep l ++ sep ++ g).
  { induction l as [|a l IH]; intros g N; [contradiction|]. destruct l as [|b l]; [reflexivity|].
    change (join sep ((a :: b :: l) ++ [g])) with (a ++ sep ++ join sep ((b :: l) ++ [g])). rewrite IH by discriminate.
    change (join sep (a :: b :: l)) with (a ++ sep ++ join sep (b :: l)). rewrite <- !app_assoc. reflexivity. }
  induction gs as [|g gs IH]; [reflexivity|]. cbn [rev width]. destruct gs as [|h gs]; [reflexivity|].
  rewrite J; [|cbn [rev]; intro E; apply app_eq_nil in E; destruct E; discriminate].
  rewrite !app_length, !Nat2Z.inj_add, IH. lia.
Qed.

(** The text is made of groups of the lengths asked for, which hold the digits behind zeros; it is at
    least as wide as asked, and no zero could be left out, except that a number without digits gets
    one. *)
Theorem C180_separators : forall sep grouping digits min_width, usual grouping ->
  exists groups t zeros, insert_thousands_sep sep grouping digits min_width = Ok t /\
    t = join sep (rev groups) /\ grouped grouping 0 groups /\
    concat (rev groups) = repeat 48 zeros ++ digits /\
    min_width <= Z.of_nat (length t) /\
    (zeros = O \/ (digits = [] /\ t = [48]) \/ shorter (Z.of_nat (length sep)) groups < min_width).
Proof.
  intros sep grouping digits mw U. destruct (lengths_right grouping U) as [gls [again [E [L [P N]]]]].
  destruct (loop_right grouping (Z.of_nat (length sep)) ltac:(lia) (S (length digits + Z.to_nat mw + length grouping)) gls again digits mw 0 L P ltac:(lia))
    as [gs [Q [R1 [R2 [k [R3 R4]]]]]].
  exists gs, (join sep (rev gs)), k. unfold insert_thousands_sep, groups_of. rewrite E. cbn [bind fst snd]. rewrite Q.
  split; [reflexivity|]. split; [reflexivity|]. split; [exact R1|]. split; [exact R3|]. split; [rewrite join_width; exact R2|].
  destruct R4 as [R4|[[R4 R5]|R4]]; [left; exact R4|right; left|right; right; exact R4].
  split; [exact R4|]. rewrite R5. reflexivity.
Qed.
Print Assumptions C180_separators.
(** 123456 in groups of three, at least eight wide: 0,123,456; and 1234567 grouped 2, 3, then none *)
Example C180_example : usual [3; 0] /\
  insert_thousands_sep [44] [3; 0] [49; 50; 51; 52; 53; 54] 8 = Ok [48; 44; 49; 50; 51; 44; 52; 53; 54] /\
  usual [2; 3; 127] /\
  insert_thousands_sep [44] [2; 3; 127] [49; 50; 51; 52; 53; 54; 55] 1 = Ok [49; 50; 44; 51; 52; 53; 44; 54; 55].
Proof.
  split; [apply (UAgain [3]); [discriminate|repeat constructor; lia]|]. split; [reflexivity|].
  split; [apply (UEnd [2; 3]); repeat constructor; lia|reflexivity].
Qed.
