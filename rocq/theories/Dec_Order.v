(** The comparisons, the total order, max and min. *)
From Coq Require Import ZArith QArith Qabs Lqa List Bool Lia ZifyBool ZifyNat.
From Verif Require Import Dec_Model Dec_Spec Dec_OrderSpec Dec_Digits Dec_Round Dec_Fix Dec_Arith Dec_Ops Dec_Cmp Dec_Special.
Import ListNotations.
Open Scope Z_scope.

Lemma cmp_order : forall x y, canonical x -> canonical y -> ~ is_nan x -> ~ is_nan y ->
  (cmp x y = -1 /\ less x y /\ ~ same x y /\ ~ less y x) \/ (cmp x y = 0 /\ same x y /\ ~ less x y /\ ~ less y x) \/ (cmp x y = 1 /\ less y x /\ ~ same x y /\ ~ less x y).
Proof.
  intros [s i e|s|g s p] [s' i' e'|s'|g' s' p'] Cx Cy Nx Ny; cbn [canonical is_nan] in *; try tauto.
  - rewrite cmp_exact by assumption. cbn [less same]. remember (value s i e) as a. remember (value s' i' e') as b. clear. destruct (a ?= b)%Q eqn:E; cbn [sign3].
    + apply Qeq_alt in E. right. left. split; [reflexivity|]. split; [exact E|]. split; lra.
    + apply Qlt_alt in E. left. split; [reflexivity|]. split; [exact E|]. split; lra.
    + apply Qgt_alt in E. right. right. split; [reflexivity|]. split; [exact E|]. split; lra.
  - destruct s'; cbn; tauto.
  - destruct s; cbn; tauto.
  - destruct s, s'; cbn; intuition congruence.
Qed.
Lemma compare_none : forall c x y, ~ is_nan x -> ~ is_nan y -> compare_check_nans c x y = ret None /\ check_nans c x (Some y) = ret None.
Proof. intros c [| |g s p] [| |g' s' p'] A B; cbn in A, B; try tauto; split; reflexivity. Qed.
Lemma compare_nan : forall g c x y f, is_nan x \/ is_nan y -> ordering g c x y f = (if traps c InvalidOperation then Raise InvalidOperation else Ret false, InvalidOperation :: f).
Proof.
  intros g c x y f H. unfold ordering, compare_check_nans, bind, raise_in, ret. destruct x as [| |[|] s p], y as [| |[|] s' p']; cbn in H; try tauto; cbn [isnan Z.eqb Pos.eqb]; destruct (traps c InvalidOperation); reflexivity.
Qed.
Lemma eq_nan : forall c x y f, is_nan x \/ is_nan y ->
  (is_signaling x \/ is_signaling y -> eq c x y f = (if traps c InvalidOperation then Raise InvalidOperation else Ret false, InvalidOperation :: f)) /\
  (~ (is_signaling x \/ is_signaling y) -> eq c x y f = (Ret false, f)).
Proof.
  intros c x y f H. unfold eq, check_nans, bind, raise_in, ret. destruct x as [| |[|] s p], y as [| |[|] s' p']; cbn in H; try tauto; cbn [isnan Z.eqb Pos.eqb negb orb is_signaling]; (split; intro A; try tauto); destruct (traps c InvalidOperation); reflexivity.
Qed.

Lemma str_lt_irrefl : forall a, str_lt a a = false.
Proof. induction a; cbn [str_lt]; [reflexivity|]. now rewrite Z.ltb_irrefl. Qed.
Lemma payload_order : forall p q, Forall is_digit p -> hd 1 p <> 0 -> Forall is_digit q -> hd 1 q <> 0 ->
  ((len p <? len q) || ((len p =? len q) && str_lt p q) = (number p <? number q)) /\ (number p = number q -> p = q).
Proof.
  assert (Low : forall p, Forall is_digit p -> hd 1 p <> 0 -> 0 < len p -> 10 ^ (len p - 1) <= number p < 10 ^ len p).
  { intros p D H L. destruct p as [|d p]; [unfold len in L; cbn in L; lia|]. assert (C : coefficient (d :: p)) by (split; [assumption|]; split; [discriminate|]; cbn in *; lia).
    cbn [hd] in H. destruct (digits_of_number (d :: p) C) as (_ & B); [|exact B]. inversion D; subst. pose proof (number_bound p ltac:(assumption)). cbn [number]. pose proof (pow10_nat (length p)). unfold is_digit in *. nia. }
  assert (Nil : forall p, len p = 0 -> number p = 0) by (intros [|? ?] H; [reflexivity|unfold len in H; cbn in H; lia]).
  intros p q Dp Hp Dq Hq. assert (0 <= len p /\ 0 <= len q) by (unfold len; lia).
  assert (Lt : forall p q, Forall is_digit p -> hd 1 p <> 0 -> Forall is_digit q -> hd 1 q <> 0 -> len p < len q -> number p < number q).
  { intros a b Da Ha Db Hb L. assert (0 <= len a) by (unfold len; lia). pose proof (Low b Db Hb ltac:(lia)) as B. destruct (Z.eq_dec (len a) 0) as [E|E].
    - rewrite (Nil a E). pose proof (pow10_pos (len b - 1)). lia.
    - pose proof (Low a Da Ha ltac:(lia)). pose proof (pow10_le (len a) (len b - 1) ltac:(lia)). lia. }
  pose proof (Lt p q Dp Hp Dq Hq) as L1. pose proof (Lt q p Dq Hq Dp Hp) as L2. clear Lt Low Nil.
  destruct (len p <? len q) eqn:A; cbn [orb]; [split; lia|]. destruct (len p =? len q) eqn:B; cbn [andb]; [|split; lia].
  assert (Le : length p = length q) by (unfold len in B; lia). split; [now apply str_lt_number|now apply digits_inj].
Qed.

Theorem total_cases : forall x y, canonical x -> canonical y ->
  (compare_total x y = -1 /\ precedes x y) \/ (compare_total x y = 0 /\ x = y) \/ (compare_total x y = 1 /\ precedes y x).
Proof.
  intros x y Cx Cy. unfold compare_total, precedes.
  destruct (sign_of x && negb (sign_of y)) eqn:S1.
  { left. split; [reflexivity|]. left. destruct x as [[|] ? ?|[|]|[|] [|] ?], y as [[|] ? ?|[|]|[|] [|] ?]; cbn in *; try discriminate; lia. }
  destruct (negb (sign_of x) && sign_of y) eqn:S2.
  { right. right. split; [reflexivity|]. left. destruct x as [[|] ? ?|[|]|[|] [|] ?], y as [[|] ? ?|[|]|[|] [|] ?]; cbn in *; try discriminate; lia. }
  assert (Sg : sign_of y = sign_of x) by (destruct (sign_of x), (sign_of y); auto; discriminate). clear S1 S2.
  destruct x as [s i e|s|g s p], y as [s' i' e'|s'|g' s' p']; cbn [sign_of] in *; subst s'.
  - destruct (cmp_order (Fin s i e) (Fin s i' e') Cx Cy ltac:(tauto) ltac:(tauto)) as [(-> & L & N & _)|[(-> & E & N & _)|(-> & L & N & _)]]; cbn [less same] in *.
    + left. split; [reflexivity|]. right. split; [reflexivity|]. now left.
    + change (0 <? 0) with false. change (0 >? 0) with false. cbn iota.
      destruct (e <? e') eqn:A; [|destruct (e >? e') eqn:B].
      * destruct s; [right; right|left]; (split; [reflexivity|]); right; (split; [reflexivity|]); right; (split; [lra|lia]).
      * destruct s; [left|right; right]; (split; [reflexivity|]); right; (split; [reflexivity|]); right; (split; [lra|lia]).
      * right. left. split; [reflexivity|]. assert (e' = e) by lia. subst e'. f_equal. apply coefficient_inj; auto.
        unfold value in E. rewrite scaled_eq in E. destruct s; cbn [signed] in E; lia.
    + right. right. split; [reflexivity|]. right. split; [reflexivity|]. left. exact L.
  - destruct s; cbn [cmp isinfinity Z.eqb Z.ltb Z.compare class]; [right; right|left]; (split; [reflexivity|left; lia]).
  - destruct s; [right; right|left]; (split; [reflexivity|]); left; destruct g'; cbn [class]; lia.
  - destruct s; cbn [cmp isinfinity Z.eqb Z.ltb Z.compare class]; [left|right; right]; (split; [reflexivity|left; lia]).
  - right. left. split; [destruct s; reflexivity|reflexivity].
  - destruct s; [right; right|left]; (split; [reflexivity|]); left; destruct g'; cbn [class]; lia.
  - destruct s; [left|right; right]; (split; [reflexivity|]); left; destruct g; cbn [class]; lia.
  - destruct s; [left|right; right]; (split; [reflexivity|]); left; destruct g; cbn [class]; lia.
  - destruct Cx as (D1 & H1), Cy as (D2 & H2). destruct (payload_order p p' D1 H1 D2 H2) as (O1 & O2). destruct (payload_order p' p D2 H2 D1 H1) as (O3 & _).
    destruct (Bool.eqb g g') eqn:G.
    + apply Bool.eqb_prop in G. subst g'. cbv zeta. rewrite O1, O3. destruct (number p <? number p') eqn:A; [|destruct (number p' <? number p) eqn:B].
      * destruct s; [right; right|left]; (split; [reflexivity|]); right; (split; [reflexivity|lia]).
      * destruct s; [left|right; right]; (split; [reflexivity|]); right; (split; [reflexivity|lia]).
      * right. left. split; [reflexivity|]. f_equal. apply O2. lia.
    + apply Bool.eqb_false_iff in G. destruct s, g, g'; try congruence; cbn [class]; (left; split; [reflexivity|left; lia]) || (right; right; split; [reflexivity|left; lia]).
Qed.
Lemma precedes_irrefl : forall x, ~ precedes x x.
Proof. intros x [A|(_ & A)]; [lia|]. destruct x as [[|] i e|s|g [|] p]; try lia; try contradiction; destruct A as [A|(_ & A)]; try lra; lia. Qed.
Lemma precedes_trans : forall x y z, precedes x y -> precedes y z -> precedes x z.
Proof.
  intros x y z A B. unfold precedes in *. destruct A as [A|(A & A')], B as [B|(B & B')]; [left; lia|left; lia|left; lia|]. right. split; [lia|].
  destruct x as [s i e|s|g s p], y as [s' i' e'|s'|g' s' p'], z as [s'' i'' e''|s''|g'' s'' p'']; try contradiction.
  - assert (s' = s) by (destruct s, s'; cbn in A; auto; lia). assert (s'' = s') by (destruct s', s''; cbn in B; auto; lia). subst s' s''. clear A B.
    destruct A' as [A|(A & A')], B' as [B|(B & B')]; [left; lra|left; lra|left; lra|right]. split; [lra|]. destruct s; lia.
  - assert (s' = s) by (destruct s, s', g, g'; cbn in A; auto; lia). subst s'. clear A B. destruct s; lia.
Qed.
(** The total order agrees with the numerical one. *)
Lemma less_precedes : forall x y, canonical x -> canonical y -> ~ is_nan x -> ~ is_nan y -> less x y -> precedes x y.
Proof.
  assert (Vs : forall (s : bool) i e, coefficient i -> (if s then value s i e <= 0 else 0 <= value s i e)%Q).
  { intros s i e (D & _). pose proof (number_bound i D) as B. pose proof (ten_pos e) as T. unfold value. assert (0 <= inject_Z (number i))%Q by (change 0%Q with (inject_Z 0); rewrite <- Zle_Qle; lia).
    destruct s; cbn [signed]; [rewrite inject_Z_opp|]; nra. }
  intros [s i e|s|g s p] [s' i' e'|s'|g' s' p'] Cx Cy Nx Ny L; cbn [less is_nan] in *; unfold precedes; try tauto.
  - pose proof (Vs s i e Cx). pose proof (Vs s' i' e' Cy). destruct s, s'; cbn [class]; [right|left; lia|exfalso; lra|right]; (split; [reflexivity|left; exact L]).
  - destruct s, s'; try contradiction; left; cbn; lia.
  - destruct s, s'; try contradiction; left; cbn; lia.
  - destruct s, s'; try contradiction; left; cbn; lia.
Qed.
Lemma fix_delivered : forall c z, valid c -> canonical z -> ~ is_nan z -> delivered c z (fix_ c z).
Proof. intros c [s i e|s|g s p] V C N; cbn [delivered]; [apply fix_delivers; auto; reflexivity|reflexivity|apply N; exact I]. Qed.

(** The operand that max and min pick. *)
Lemma pick_cases : forall x y, canonical x -> canonical y -> ~ is_nan x -> ~ is_nan y ->
  let k := if cmp x y =? 0 then compare_total x y else cmp x y in
  (k = -1 /\ precedes x y) \/ (k = 0 /\ x = y) \/ (k = 1 /\ precedes y x).
Proof.
  intros x y Cx Cy Nx Ny. destruct (cmp_order x y Cx Cy Nx Ny) as [(-> & L & _)|[(-> & _)|(-> & L & _)]]; cbn [Z.eqb].
  - left. split; [reflexivity|]. now apply less_precedes.
  - now apply total_cases.
  - right. right. split; [reflexivity|]. now apply less_precedes.
Qed.
Lemma not_nan_number : forall x, ~ is_nan x -> isnan x = 0.
Proof. intros [| |g s p] H; cbn in *; tauto. Qed.
Theorem max_ok : forall c x y, valid c -> canonical x -> canonical y -> ~ is_nan x -> ~ is_nan y ->
  exists z, (z = x \/ z = y) /\ ~ precedes z x /\ ~ precedes z y /\ delivered c z (max_ c x y).
Proof.
  intros c x y V Cx Cy Nx Ny. unfold max_. rewrite (not_nan_number x Nx), (not_nan_number y Ny). cbn [Z.eqb negb orb]. cbv zeta.
  destruct (pick_cases x y Cx Cy Nx Ny) as [(-> & P)|[(-> & ->)|(-> & P)]]; cbn [Z.eqb Pos.eqb].
  - exists y. split; [now right|]. split; [intro A; exact (precedes_irrefl _ (precedes_trans _ _ _ P A))|]. split; [apply precedes_irrefl|now apply fix_delivered].
  - exists y. split; [now right|]. split; [apply precedes_irrefl|]. split; [apply precedes_irrefl|now apply fix_delivered].
  - exists x. split; [now left|]. split; [apply precedes_irrefl|]. split; [intro A; exact (precedes_irrefl _ (precedes_trans _ _ _ P A))|now apply fix_delivered].
Qed.
Theorem min_ok : forall c x y, valid c -> canonical x -> canonical y -> ~ is_nan x -> ~ is_nan y ->
  exists z, (z = x \/ z = y) /\ ~ precedes x z /\ ~ precedes y z /\ delivered c z (min_ c x y).
Proof.
  intros c x y V Cx Cy Nx Ny. unfold min_. rewrite (not_nan_number x Nx), (not_nan_number y Ny). cbn [Z.eqb negb orb]. cbv zeta.
  destruct (pick_cases x y Cx Cy Nx Ny) as [(-> & P)|[(-> & ->)|(-> & P)]]; cbn [Z.eqb Pos.eqb].
  - exists x. split; [now left|]. split; [apply precedes_irrefl|]. split; [intro A; exact (precedes_irrefl _ (precedes_trans _ _ _ P A))|now apply fix_delivered].
  - exists y. split; [now right|]. split; [apply precedes_irrefl|]. split; [apply precedes_irrefl|now apply fix_delivered].
  - exists y. split; [now right|]. split; [intro A; exact (precedes_irrefl _ (precedes_trans _ _ _ P A))|]. split; [apply precedes_irrefl|now apply fix_delivered].
Qed.
(** A quiet NaN beside a number is ignored. *)
Lemma one_nan : forall c x y, valid c -> canonical x -> canonical y ->
  (is_nan x /\ ~ is_signaling x /\ ~ is_nan y -> delivered c y (max_ c x y) /\ delivered c y (min_ c x y)) /\
  (is_nan y /\ ~ is_signaling y /\ ~ is_nan x -> delivered c x (max_ c x y) /\ delivered c x (min_ c x y)).
Proof.
  intros c x y V Cx Cy. split; intros (A & B & C).
  - destruct x as [| |[|] s p]; cbn in A, B; try tauto. unfold max_, min_. rewrite (not_nan_number y C). cbn [isnan Z.eqb Pos.eqb negb orb andb]. split; now apply fix_delivered.
  - destruct y as [| |[|] s p]; cbn in A, B; try tauto. unfold max_, min_. rewrite (not_nan_number x C). cbn [isnan Z.eqb Pos.eqb negb orb andb]. split; now apply fix_delivered.
Qed.
Lemma canonical_good : forall x, canonical x -> good x.
Proof. intros [| |] C; cbn in *; tauto. Qed.
Lemma max_nans : forall c x y z b f, valid c -> canonical x -> canonical y -> passed_on x y z b -> is_signaling x \/ is_signaling y \/ (is_nan x /\ is_nan y) ->
  (exists r, quieted c z r /\ max_ c x y f = report c (if b then [InvalidOperation] else []) r f) /\
  (exists r, quieted c z r /\ min_ c x y f = report c (if b then [InvalidOperation] else []) r f).
Proof.
  intros c x y z b f V Cx Cy P H. assert (E : max_ c x y = after_nans c x (Some y) (ret x) /\ min_ c x y = after_nans c x (Some y) (ret x)).
  { unfold max_, min_. destruct x as [| |[|] s p], y as [| |[|] s' p']; cbn in H; try tauto; split; reflexivity. }
  destruct E as (-> & ->). split; apply nans_passed; auto using canonical_good.
Qed.
