(** C181: formatted decimals have the parts, the alignment and the width that are asked for. *)
From Coq Require Import ZArith List Bool Lia ZifyBool ZifyNat.
From Verif Require Import Py Thousands_Model Thousands_Spec Properties_Thousands DecFormat_Model DecFormat_Spec.
Import ListNotations.
Open Scope Z_scope.

Lemma filled_repeat : forall c n, filled c n (repeat c n).
Proof. intros c n. split; [apply repeat_length|]. intros x X. apply repeat_spec in X. exact X. Qed.
Lemma sign_right : forall neg s, sign_shown (signs s) neg (format_sign neg s).
Proof. intros neg s. unfold format_sign. destruct neg; [constructor|]. destruct (signs s); [apply NoSign|apply Space|apply Plus]; reflexivity. Qed.
Lemma align_right : forall sign body s,
  placed (fill s) (Z.to_nat (minimumwidth s - Z.of_nat (length sign) - Z.of_nat (length body))) sign body (aligned s) (format_align sign body s).
Proof.
  intros sign body s. unfold format_align. set (n := Z.to_nat _).
  destruct (aligned s); [constructor|constructor|constructor|]; try apply filled_repeat.
  rewrite repeat_length. assert (D := Nat.div_mod n 2 ltac:(lia)). assert (M := Nat.mod_upper_bound n 2 ltac:(lia)).
  apply PCenter with (a := Nat.div n 2) (b := (n - Nat.div n 2)%nat); [| |lia|lia].
  - split; [rewrite firstn_length, repeat_length; lia|]. intros x X.
    assert (Y : In x (repeat (fill s) n)) by (rewrite <- (firstn_skipn (Nat.div n 2) (repeat (fill s) n)), in_app_iff; left; exact X).
    apply repeat_spec in Y. exact Y.
  - split; [rewrite skipn_length, repeat_length; lia|]. intros x X.
    assert (Y : In x (repeat (fill s) n)) by (rewrite <- (firstn_skipn (Nat.div n 2) (repeat (fill s) n)), in_app_iff; right; exact X).
    apply repeat_spec in Y. exact Y.
Qed.
Lemma after_right : forall show frac exp s, (exp <> 0 -> exists c, scientific (type s) c) ->
  exists p e c, after show frac exp s = Ok (p ++ e ++ c) /\ point_shown (decimal_point s) (alt s) frac p /\
    exponent_shown show (type s) exp e /\ percent_shown (type s) c.
Proof.
  intros show frac exp s H. unfold after.
  set (p := match frac with [] => if alt s then decimal_point s else [] | _ => decimal_point s ++ frac end).
  assert (P : point_shown (decimal_point s) (alt s) frac p).
  { unfold p. destruct frac as [|c frac].
    - destruct (alt s) eqn:A; [|constructor; reflexivity]. rewrite <- (app_nil_r (decimal_point s)) at 2. apply Point. right. reflexivity.
    - apply Point. left. discriminate. }
  exists p. clearbody p.
  assert (Sc : forall k c, scientific k c -> echar k = Ok c /\ k <> K_percent).
  { intros k c [[[->| ->] ->]|[[->| ->] ->]]; split; try reflexivity; discriminate. }
  destruct (Z.eqb_spec exp 0) as [E|E]; cbn [negb orb].
  - destruct (is_e (type s)) eqn:I; cbn [bind].
    + assert (exists c, scientific (type s) c) as [c C].
      { destruct (type s); try discriminate; [exists 101; left; auto|exists 69; right; auto]. }
      destruct (Sc _ _ C) as [Ec Np]. exists (c :: show exp), []. rewrite Ec. cbn [bind]. split.
      * destruct (type s); try contradiction; cbn [app]; rewrite app_nil_r; reflexivity.
      * split; [exact P|]. split; [|constructor; exact Np]. constructor; [|exact C]. right. destruct (type s); try discriminate; auto.
    + assert (Ne : exponent_shown show (type s) exp []) by (constructor; [exact E| |]; intro X; rewrite X in I; discriminate).
      destruct (type s) eqn:K; try (exists [], []; cbn [app]; rewrite app_nil_r; split; [reflexivity|split; [exact P|split; [exact Ne|constructor; discriminate]]]).
      exists [], [37]. split; [reflexivity|]. split; [exact P|]. split; [exact Ne|]. constructor. reflexivity.
  - destruct (H E) as [c C]. destruct (Sc _ _ C) as [Ec Np]. exists (c :: show exp), []. rewrite Ec. cbn [bind]. split.
    + destruct (type s); try contradiction; cbn [app]; rewrite app_nil_r; reflexivity.
    + split; [exact P|]. split; [|constructor; exact Np]. constructor; [|exact C]. left. exact E.
Qed.
Lemma shorter_pos : forall grouping sep i gs, 0 <= sep -> grouped grouping i gs -> 0 <= shorter sep gs.
Proof.
  intros grouping sep i gs Sp G. induction G as [i g n _ N _|i g r m _ _ G IH].
  - destruct g; [contradiction|]. cbn [shorter length]. lia.
  - destruct r as [|x r]; [cbn [shorter]; inversion G|].
    assert (Sh : shorter sep (g :: x :: r) = Z.of_nat (length g) + sep + shorter sep (x :: r) \/ shorter sep (g :: x :: r) = Z.of_nat (length g)).
    { destruct r as [|y r]; [|left; destruct x as [|? [|? ?]]; reflexivity].
      destruct x as [|c [|c2 x]]; [left; reflexivity|right; reflexivity|left; reflexivity]. }
    destruct Sh as [-> | ->]; lia.
Qed.

(** The text has the sign, the grouped integer part, the point and fraction, the exponent and the per
    cent sign in this order; it is filled where asked and is never narrower than asked.  Zero padding
    leaves nothing to fill and adds no zero that could be left out; without it none are added. *)
Theorem C181_format : forall show neg intpart frac exp s, usual (grouping s) -> intpart <> [] ->
  (exp <> 0 -> exists c, scientific (type s) c) ->
  exists t sign groups point expo percent zeros fills,
    format_number show neg intpart frac exp s = Ok t /\
    sign_shown (signs s) neg sign /\ grouped (grouping s) 0 groups /\ concat (rev groups) = repeat 48 zeros ++ intpart /\
    point_shown (decimal_point s) (alt s) frac point /\ exponent_shown show (type s) exp expo /\ percent_shown (type s) percent /\
    placed (fill s) fills sign (join (thousands_sep s) (rev groups) ++ point ++ expo ++ percent) (aligned s) t /\
    minimumwidth s <= Z.of_nat (length t) /\
    (fills = O \/ Z.of_nat (length t) = minimumwidth s) /\
    (if zeropad s
     then fills = O /\ (zeros = O \/ Z.of_nat (length sign) + shorter (Z.of_nat (length (thousands_sep s))) groups +
                                     Z.of_nat (length (point ++ expo ++ percent)) < minimumwidth s)
     else zeros = O).
Proof.
  intros show neg intpart frac exp s U NE H.
  destruct (after_right show frac exp s H) as [p [e [c [EA [P [Ex Pc]]]]]].
  set (sign := format_sign neg s).
  set (mw := if zeropad s then minimumwidth s - Z.of_nat (length (p ++ e ++ c)) - Z.of_nat (length sign) else 0).
  destruct (C180_separators (thousands_sep s) (grouping s) intpart mw U) as [gs [ip [k [EI [Ej [G [Cc [W Min]]]]]]]].
  set (body := ip ++ p ++ e ++ c).
  set (n := Z.to_nat (minimumwidth s - Z.of_nat (length sign) - Z.of_nat (length body))).
  pose proof (align_right sign body s) as A. fold n in A.
  assert (Len : length (format_align sign body s) = (length sign + length body + n)%nat).
  { destruct A as [q [L _]|q [L _]|q [L _]|a b q r [L1 _] [L2 _] L3 _]; rewrite !app_length; lia. }
  exists (format_align sign body s), sign, gs, p, e, c, k, n.
  split. { unfold format_number. fold sign. rewrite EA. cbn [bind]. fold mw. rewrite EI. reflexivity. }
  split; [apply sign_right|]. split; [exact G|]. split; [exact Cc|]. split; [exact P|]. split; [exact Ex|]. split; [exact Pc|].
  split; [rewrite <- Ej; exact A|]. split; [rewrite Len; lia|]. split; [rewrite Len; lia|].
  destruct (zeropad s) eqn:Z0; unfold mw in *.
  - split; [unfold n, body; rewrite app_length; lia|]. destruct Min as [Min|[[Min _]|Min]]; [left; exact Min|contradiction|right; lia].
  - destruct Min as [Min|[[Min _]|Min]]; [exact Min|contradiction|].
    pose proof (shorter_pos _ (Z.of_nat (length (thousands_sep s))) _ _ ltac:(lia) G). lia.
Qed.
Print Assumptions C181_format.
(** -1234.5 with {:*^12,} and 1234.5 with {:+011,}, which takes 12 *)
Definition sample (a : align) (o : sign_option) (z : bool) (w : Z) : spec := Spec w 42 a o z [44] [3; 0] [46] false K_f.
Example C181_example : usual (grouping (sample Center SMinus false 12)) /\
  format_number (fun _ => []) true [49; 50; 51; 52] [53] 0 (sample Center SMinus false 12) =
    Ok [42; 42; 45; 49; 44; 50; 51; 52; 46; 53; 42; 42] /\
  format_number (fun _ => []) false [49; 50; 51; 52] [53] 0 (sample AfterSign SPlus true 11) =
    Ok [43; 48; 44; 48; 48; 49; 44; 50; 51; 52; 46; 53].
Proof. split; [apply (UAgain [3]); [discriminate|repeat constructor; lia]|]. split; reflexivity. Qed.
