From Coq Require Import ZArith List Bool Lia ZifyBool.
From Verif Require Import Py Calendar_Model Calendar_Spec Calendar_Proofs Timedelta_Model Timedelta_Spec Timedelta_Proofs Datetime_Model Datetime_Spec Datetime_Proofs.
Import ListNotations.
Open Scope Z_scope.
Ltac Zify.zify_post_hook ::= Z.to_euclidean_division_equations.

Lemma sign_rel c p q : c = b2z (q <? p) - b2z (p <? q) -> forall r, rel_of r c = s_rel r p q.
Proof. intros -> r. destruct (Z.ltb_spec q p), (Z.ltb_spec p q); destruct r; cbn [rel_of s_rel b2z]; lia. Qed.
Lemma clock_cmp a b : is_time a -> is_time b ->
  forall r, rel_of r (cmp [th a; tmi a; ts a; tus a] [th b; tmi b; ts b; tus b]) = s_rel r (t_us a) (t_us b).
Proof.
  intros (A1 & A2 & A3 & A4 & _) (B1 & B2 & B3 & B4 & _). apply sign_rel. unfold cmp. f_equal; f_equal; rewrite !lex_lt_cons, lex_lt_nil; unfold t_us; lia.
Qed.
Lemma minute_ok : stands_for minute_td 60000000. Proof. vm_compute. repeat split; discriminate. Qed.
Lemma hour_ok : stands_for (mkTd 0 3600 0) 3600000000. Proof. vm_compute. repeat split; discriminate. Qed.
Lemma floordiv_us a b x y : stands_for a x -> stands_for b y -> y <> 0 -> m_floordiv a b = Ok (x / y).
Proof. intros A B N. unfold m_floordiv. rewrite (stands_us _ _ A), (stands_us _ _ B). destruct (Z.eqb_spec y 0); [contradiction | reflexivity]. Qed.
Lemma mod_us a b x y : stands_for a x -> stands_for b y -> y <> 0 -> exists t, m_mod a b = Ok t /\ stands_for t (x mod y).
Proof. intros A B N. apply gives_in; [apply mod_gives; assumption | eapply mod_in_range; eassumption]. Qed.
Lemma divmod_us a b x y : stands_for a x -> stands_for b y -> y <> 0 -> exists t, m_divmod a b = Ok (x / y, t) /\ stands_for t (x mod y).
Proof.
  intros A B N. destruct (mod_us a b x y A B N) as (t & E & S). unfold m_mod in E. unfold m_divmod.
  rewrite (stands_us _ _ A), (stands_us _ _ B) in *. destruct (Z.eqb_spec y 0); [contradiction|]. rewrite E. exists t. auto.
Qed.
Lemma tm_rel_ok r a b : is_time a -> is_time b -> t_consistent a b -> whole_minutes a -> whole_minutes b ->
  s_time_order r a b (tm_rel r a b).
Proof.
  intros A B K WA WB. unfold s_time_order, tm_rel, tm_cmp, t_aware, t_key, t_same, t_off.
  pose proof (clock_cmp a b A B) as C. assert (OA := A). assert (OB := B). destruct OA as (A1 & A2 & A3 & A4 & OA), OB as (B1 & B2 & B3 & B4 & OB).
  destruct (ttz a) as [[z o]|] eqn:Ta, (ttz b) as [[z' o']|] eqn:Tb; cbn [option_map fst snd same_zone off_eq orb Bool.eqb bind].
  - destruct (OA z o eq_refl) as [So Bo], (OB z' o' eq_refl) as [So' Bo']. rewrite (cmp_ok _ _ _ _ So So'). cbn [s_rel].
    destruct (Nat.eqb z z' || (to_us o =? to_us o')) eqn:Q.
    + assert (E : to_us o = to_us o').
      { destruct (Nat.eqb_spec z z') as [->|N]; [|cbn [orb] in Q; lia]. rewrite (K z' o o' Ta Tb). reflexivity. }
      cbn [bind]. rewrite C, E. f_equal. destruct r; cbn [s_rel]; lia.
    + pose proof (WA z o Ta). pose proof (WB z' o' Tb).
      rewrite (floordiv_us _ _ _ _ So minute_ok) by discriminate. rewrite (floordiv_us _ _ _ _ So' minute_ok) by discriminate. cbn [bind]. f_equal.
      apply sign_rel. unfold cmp. f_equal; f_equal; rewrite !lex_lt_cons, lex_lt_nil; unfold t_us; lia.
  - destruct r; reflexivity.
  - destruct r; reflexivity.
  - rewrite C. reflexivity.
Qed.
(** the hash is a function of the key and of being aware, for whole minutes *)
Definition hash_of (k : Z) : thashed :=
  let h := k / 3600000000 in let m := k / 60000000 mod 60 in let s := k / 1000000 mod 60 in let u := k mod 1000000 in
  if (0 <=? h) && (h <? 24) then HTime h m s u else HTuple h m s u.
Lemma tm_hash_ok a : is_time a -> whole_minutes a -> tm_hash a = Ok (hash_of (t_key a)).
Proof.
  intros A W. destruct A as (A1 & A2 & A3 & A4 & OA). unfold tm_hash, t_off, t_key.
  assert (Plain : Ok (HTime (th a) (tmi a) (ts a) (tus a)) = Ok (hash_of (t_us a))).
  { unfold hash_of. assert (H : t_us a / 3600000000 = th a) by (unfold t_us; lia). rewrite H. replace ((0 <=? th a) && (th a <? 24)) with true by lia.
    f_equal. f_equal; unfold t_us; lia. }
  destruct (ttz a) as [[z o]|] eqn:Ta; cbn [option_map snd]; [|exact Plain].
  destruct (OA z o eq_refl) as [So Bo]. pose proof (W z o Ta) as Wo. rewrite (bool_ok o _ So), negb_involutive.
  destruct (Z.eqb_spec (to_us o) 0) as [E|N]; [rewrite E, Z.sub_0_r; exact Plain|].
  destruct (gives_in (td_new 0 0 0 0 (tmi a) (th a) 0) ((th a * 60 + tmi a) * 60000000)) as (x & -> & Sx).
  { pose proof (td_new_gives 0 0 0 0 (tmi a) (th a) 0) as G. replace (_ + 1000 * 0) with ((th a * 60 + tmi a) * 60000000) in G by lia. exact G. }
  { unfold us_min, us_max, us_per_day. lia. }
  cbn [bind]. destruct (gives_in _ _ (sub_gives x o _ _ Sx So)) as (y & -> & Sy); [unfold us_min, us_max, us_per_day in *; lia|]. cbn [bind].
  set (k := (th a * 60 + tmi a) * 60000000 - to_us o) in *.
  destruct (divmod_us y _ _ _ Sy hour_ok ltac:(discriminate)) as (m & -> & Sm). cbn [bind].
  destruct (mod_us m _ _ _ Sm minute_ok ltac:(discriminate)) as (w & -> & Sw). cbn [bind].
  assert (Zw : (k mod 3600000000) mod 60000000 = 0) by (unfold k; lia). rewrite (bool_ok _ _ Sw), Zw. cbn [Z.eqb negb].
  rewrite (floordiv_us m _ _ _ Sm minute_ok) by discriminate. cbn [bind]. f_equal. unfold hash_of.
  assert (Ek : t_us a - to_us o = k + ts a * 1000000 + tus a) by (unfold t_us, k; lia). rewrite Ek.
  assert (K60 : k mod 60000000 = 0) by (unfold k; lia). clearbody k.
  replace ((k + ts a * 1000000 + tus a) / 3600000000) with (k / 3600000000) by lia.
  replace ((k + ts a * 1000000 + tus a) / 60000000 mod 60) with (k mod 3600000000 / 60000000) by lia.
  replace ((k + ts a * 1000000 + tus a) / 1000000 mod 60) with (ts a) by lia.
  replace ((k + ts a * 1000000 + tus a) mod 1000000) with (tus a) by lia. reflexivity.
Qed.
