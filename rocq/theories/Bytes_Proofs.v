(** Proofs about bytes and bytearray. *)
From Coq Require Import ZArith List Bool Lia ZifyBool ZifyNat.
From Verif Require Import Py Range_Spec PySeq_Spec Seq_Model Seq_Spec Seq_Proofs SeqMut_Proofs
  Str_Model Str_Spec Str_Proofs Bytes_Model Bytes_Spec.
Import ListNotations.
Open Scope Z_scope.
Ltac ifs' H := repeat (match type of H with context [if ?b then _ else _] => destruct b eqn:? end; try discriminate H).
Ltac Zify.zify_post_hook ::= Z.div_mod_to_equations.

(** *** Hex *)
Lemma digit_cases (P : Z -> Prop) :
  P 0 -> P 1 -> P 2 -> P 3 -> P 4 -> P 5 -> P 6 -> P 7 -> P 8 -> P 9 -> P 10 -> P 11 -> P 12 -> P 13 -> P 14 -> P 15 ->
  forall d, 0 <= d < 16 -> P d.
Proof.
  intros. assert (D : d = 0 \/ d = 1 \/ d = 2 \/ d = 3 \/ d = 4 \/ d = 5 \/ d = 6 \/ d = 7 \/ d = 8 \/ d = 9 \/ d = 10
    \/ d = 11 \/ d = 12 \/ d = 13 \/ d = 14 \/ d = 15) by lia.
  repeat (destruct D as [->|D]; [assumption|]). now subst.
Qed.
Lemma hex_digit_nth d : 0 <= d < 16 -> make_hex_digit d = nth (Z.to_nat d) hex_digits 0.
Proof. revert d. apply digit_cases; reflexivity. Qed.
Lemma make_hex_mod v : make_hex_digit v = make_hex_digit (v mod 16).
Proof. unfold make_hex_digit. now rewrite Z.mod_mod by lia. Qed.
Lemma hex2_correct b : byte b -> [make_hex_digit (b / 16); make_hex_digit b] = hex2 b.
Proof.
  intro B. unfold hex2, byte in *. rewrite hex_digit_nth by lia. rewrite (make_hex_mod b).
  rewrite hex_digit_nth by (apply Z.mod_pos_bound; lia). reflexivity.
Qed.
Lemma hex_correct s : Forall byte s -> m_hex s = py_hex s.
Proof. unfold m_hex, py_hex. induction 1 as [|b s B F IH]; cbn [flat_map]; auto. rewrite IH. rewrite <- (hex2_correct b B). reflexivity. Qed.
Lemma hex_loop_correct sep k k' start n : forall s i, Forall byte s ->
  (forall j, i <= j < i + slen s ->
     (negb (start + j =? start) && ((start + j) mod k =? 0)) = sep_before n k' j) ->
  hex_loop [sep] k start (start + i) s = hex_groups n k' sep i s.
Proof.
  induction s as [|b s IH]; intros i B H; cbn [hex_loop hex_groups]; auto. inversion B; subst. rewrite slen_cons in H.
  pose proof (slen_nonneg s). rewrite (H i ltac:(lia)). rewrite <- (hex2_correct b) by auto.
  replace (start + i + 1) with (start + (i + 1)) by lia. rewrite IH; auto. intros j Hj. apply H. lia.
Qed.
Lemma hex_nosep n : forall s start i sep, Forall byte s -> hex_loop [] 1 start i s = hex_groups n 0 sep 0 s.
Proof.
  enough (H : forall s start i j sep, Forall byte s -> hex_loop [] 1 start i s = hex_groups n 0 sep j s) by eauto.
  induction s as [|b s IH]; intros start i j sep B; cbn [hex_loop hex_groups]; auto. inversion B; subst.
  rewrite <- (hex2_correct b) by auto. rewrite (IH start (i + 1) (j + 1) sep) by auto.
  replace (sep_before n 0 j) with false by (unfold sep_before; destruct (j =? 0); reflexivity).
  destruct (_ && _); reflexivity.
Qed.
Lemma hex_sep_correct s sep k : Forall byte s -> k <= 0 \/ (2 * slen s) mod k = 0 ->
  m_hex_sep s sep k = py_hex_sep s sep k.
Proof.
  intros B H. unfold m_hex_sep, py_hex_sep. change (len s) with (slen s). pose proof (slen_nonneg s).
  destruct (0 <=? k) eqn:K.
  - destruct (k =? 0) eqn:K0.
    + assert (k = 0) by lia. subst k. now apply hex_nosep.
    + destruct H as [H|H]; [lia|]. set (st := slen s mod k).
      replace st with (st + 0) at 2 by lia. apply hex_loop_correct; auto. intros j Hj. unfold sep_before.
      replace (0 <? k) with true by lia. replace (st + j =? st) with (j =? 0) by lia. f_equal.
      assert (E : (st + j) mod k = (slen s + j) mod k) by (unfold st; apply Z.add_mod_idemp_l; lia). rewrite E.
      apply Z.mod_divide in H; [|lia]. destruct H as (q & H).
      assert (D : forall x, (x mod k =? 0) = true <-> exists c, x = c * k).
      { intro x. rewrite Z.eqb_eq, Z.mod_divide by lia. reflexivity. }
      apply eq_true_iff_eq. rewrite !D. split; intros (c & C); exists (q - c); rewrite Z.mul_sub_distr_r; lia.
  - apply (hex_loop_correct sep (- k) k 0 (slen s) s 0); auto. intros j Hj. unfold sep_before.
    replace (0 <? k) with false by lia. replace (k <? 0) with true by lia. cbn iota. rewrite Z.add_0_l. reflexivity.
Qed.

Lemma ascii_space_iff c : is_ascii_space_ord c = true <-> ascii_space c.
Proof. unfold is_ascii_space_ord, ascii_space. cbn [In]. lia. Qed.
Lemma nth_hex d : 0 <= d < 16 -> nth (Z.to_nat d) hex_digits 0 = if d <? 10 then 48 + d else 87 + d.
Proof. revert d. apply digit_cases; reflexivity. Qed.
Lemma parse_hex_correct c d : parse_hex_digit c = Some d <-> hex_value c d.
Proof.
  unfold parse_hex_digit, hex_value. split.
  - intro H. assert (R : 0 <= d < 16) by (ifs' H; injection H as <-; lia). split; auto. rewrite nth_hex by auto.
    ifs' H; injection H as <-; ifs; lia.
  - intros (R & H). rewrite nth_hex in H by auto. destruct (d <? 10) eqn:D; ifs; try (f_equal; lia); lia.
Qed.
Lemma hexparse_digit_not_space c d : hex_value c d -> is_ascii_space_ord c = false /\ (c <? 128) = true.
Proof. intros (R & H). rewrite nth_hex in H by auto. unfold is_ascii_space_ord. destruct (d <? 10) eqn:D; lia. Qed.
Lemma fromhex_ok s l : hexparse s l -> forall acc, fromhex_loop s None acc = Ok (acc ++ l).
Proof.
  induction 1 as [|c s l S H IH|c d h k s l C D H IH]; intro acc; cbn [fromhex_loop].
  - now rewrite app_nil_r.
  - apply ascii_space_iff in S. rewrite S. replace (c <? 128) with true by (unfold is_ascii_space_ord in S; lia). cbn [negb]. apply IH.
  - destruct (hexparse_digit_not_space c h C) as (-> & ->). destruct (hexparse_digit_not_space d k D) as (_ & ->). cbn [negb].
    apply parse_hex_correct in C, D. rewrite C, D. rewrite IH, <- app_assoc. cbn [app]. do 3 f_equal. lia.
Qed.
Lemma fromhex_err n : forall s, (length s <= n)%nat -> forall acc, (exists l, hexparse s l) \/ fromhex_loop s None acc = Err ValueError.
Proof.
  induction n as [|n IH]; intros s Hn acc.
  - destruct s; [|cbn in Hn; lia]. left. exists []. constructor.
  - destruct s as [|c s]; [left; exists []; constructor|]. cbn [length] in Hn. cbn [fromhex_loop].
    destruct (c <? 128) eqn:A; cbn [negb]; [|auto]. destruct (is_ascii_space_ord c) eqn:S.
    + destruct (IH s ltac:(lia) acc) as [(l & H)|H]; [left; exists l; constructor; auto; now apply ascii_space_iff|auto].
    + destruct (parse_hex_digit c) as [h|] eqn:C; [|auto]. destruct s as [|d s]; cbn [fromhex_loop]; [auto|].
      destruct (d <? 128) eqn:A2; cbn [negb]; [|auto]. destruct (parse_hex_digit d) as [k|] eqn:D; [|auto].
      cbn [length] in Hn. destruct (IH s ltac:(lia) (acc ++ [h * 16 + k])) as [(l & H)|H]; [left|auto].
      apply parse_hex_correct in C, D. exists (16 * h + k :: l). now constructor.
Qed.
Lemma fromhex_correct s : match m_fromhex s with
  | Ok l => hexparse s l /\ forall l', hexparse s l' -> l' = l
  | Err e => e = ValueError /\ forall l, ~ hexparse s l end.
Proof.
  unfold m_fromhex. destruct (fromhex_err (length s) s (le_n _) []) as [(l & H)|E].
  - rewrite (fromhex_ok s l H). cbn [app]. split; auto. intros l' H'. pose proof (fromhex_ok s l' H' []) as E.
    rewrite (fromhex_ok s l H) in E. cbn [app] in E. congruence.
  - rewrite E. split; auto. intros l H. rewrite (fromhex_ok s l H) in E. discriminate.
Qed.
Lemma hex_value_digit d : 0 <= d < 16 -> hex_value (nth (Z.to_nat d) hex_digits 0) d.
Proof. intro. split; auto. Qed.
Lemma hexparse_hex s : Forall byte s -> hexparse (py_hex s) s.
Proof.
  unfold py_hex. induction 1 as [|b s B F IH]; cbn [flat_map]; [constructor|]. unfold hex2, byte in *. cbn [app].
  replace (b :: s) with (16 * (b / 16) + b mod 16 :: s) by (f_equal; lia).
  constructor; auto; apply hex_value_digit; lia.
Qed.
(** separators anywhere do not matter to fromhex, so the round trip holds for every group size *)
Lemma hex_loop_parse sep k start s : Forall byte s -> forall sp i, sp = [sep] /\ ascii_space sep \/ sp = [] ->
  hexparse (hex_loop sp k start i s) s.
Proof.
  induction 1 as [|b s B F IH]; intros sp i H; cbn [hex_loop]; [constructor|].
  assert (P : hexparse ([make_hex_digit (b / 16); make_hex_digit b] ++ hex_loop sp k start (i + 1) s) (b :: s)).
  { rewrite (hex2_correct b B). unfold hex2, byte in *. cbn [app]. replace (b :: s) with (16 * (b / 16) + b mod 16 :: s) by (f_equal; lia).
    constructor; auto; apply hex_value_digit; lia. }
  destruct (_ && _); auto. destruct H as [(-> & S)| ->]; auto. cbn [app] in *. now constructor.
Qed.
Lemma fromhex_hex s : Forall byte s -> m_fromhex (m_hex s) = Ok s.
Proof. intro B. rewrite hex_correct by auto. exact (fromhex_ok _ _ (hexparse_hex s B) []). Qed.
Lemma fromhex_hex_sep s sep k : Forall byte s -> ascii_space sep -> m_fromhex (m_hex_sep s sep k) = Ok s.
Proof.
  intros B S. unfold m_fromhex, m_hex_sep.
  destruct (0 <=? k); [destruct (k =? 0)|]; apply (fun H => fromhex_ok _ _ H []); apply (hex_loop_parse sep); auto.
Qed.

(** *** ASCII case *)
Lemma case_correct s : m_blower s = map py_lower s /\ m_bupper s = map py_upper s /\ m_bswapcase s = map py_swap s.
Proof.
  unfold m_blower, m_bupper, m_bswapcase, swap_ascii_case, py_lower, py_upper, py_swap, b2z.
  repeat split; apply map_ext; intro b; cbn zeta; ifs; lia.
Qed.
Lemma case_bytes s : Forall byte s -> Forall byte (m_blower s) /\ Forall byte (m_bupper s) /\ Forall byte (m_bswapcase s).
Proof.
  intro B. destruct (case_correct s) as (-> & -> & ->).
  repeat split; apply Forall_map; (eapply Forall_impl; [|exact B]); intros b Hb; unfold byte, py_lower, py_upper, py_swap in *; ifs; lia.
Qed.

(** *** bytearray *)
Definition byteb (x : Z) : bool := (0 <=? x) && (x <=? 255).
Lemma byteb_iff x : byteb x = true <-> byte x.
Proof. unfold byteb, byte. lia. Qed.
Lemma forallb_byte l : forallb byteb l = true <-> Forall byte l.
Proof. rewrite forallb_forall, Forall_forall. split; intros H x I; apply byteb_iff; auto. Qed.
Lemma existsb_byte l : existsb out_of_byte_range l = negb (forallb byteb l).
Proof. induction l as [|x l IH]; cbn; auto. rewrite IH. unfold out_of_byte_range, byteb. destruct (forallb _ l); lia. Qed.

Lemma Forall_firstn' {A} (P : A -> Prop) n l : Forall P l -> Forall P (firstn n l).
Proof. intro F. rewrite <- (firstn_skipn n l) in F. apply Forall_app in F. tauto. Qed.
Lemma Forall_skipn' {A} (P : A -> Prop) n l : Forall P l -> Forall P (skipn n l).
Proof. intro F. rewrite <- (firstn_skipn n l) in F. apply Forall_app in F. tauto. Qed.
Lemma Forall_list_set {A} (P : A -> Prop) x : P x -> forall l n, Forall P l -> Forall P (list_set l n x).
Proof. intros X. induction l as [|y l IH]; intros [|n] F; cbn; auto; inversion F; subst; auto. Qed.
Lemma Forall_set_all {A} (P : A -> Prop) : forall idx v l, Forall P l -> Forall P v -> Forall P (list_set_all l idx v).
Proof. induction idx as [|i idx IH]; intros [|x v] l F V; cbn; auto. inversion V; subst. apply IH; auto. now apply Forall_list_set. Qed.
Lemma Forall_keep {A} (P : A -> Prop) f : forall l p, Forall P l -> Forall P (keep f p l).
Proof. induction l as [|x l IH]; intros p F; cbn [keep]; auto. inversion F; subst. destruct (f p); auto. Qed.
Lemma Forall_repeat {A} (P : A -> Prop) l n : Forall P l -> Forall P (py_repeat l n).
Proof. intro F. unfold py_repeat. induction (Z.to_nat n); cbn; [constructor|]. apply Forall_app. auto. Qed.
Lemma l_step_bytes l o : Forall byte l -> Forall byte (stored o) -> Forall byte (snd (l_step l o)).
Proof.
  intros F S. destruct o; cbn [l_step stored] in *; auto; cbn [snd].
  - unfold py_setitem. destruct (py_pos _ _); cbn; auto. inversion S; subst. now apply Forall_list_set.
  - unfold py_setslice. destruct (py_indices _ _) as [((a, b), st)|]; cbn; auto.
    destruct (st =? 1); cbn.
    + rewrite !Forall_app. auto using Forall_firstn', Forall_skipn'.
    + destruct (Nat.eqb _ _); cbn; auto. now apply Forall_set_all.
  - unfold py_delitem. destruct (py_pos _ _); cbn; auto. rewrite Forall_app. auto using Forall_firstn', Forall_skipn'.
  - unfold py_delslice. destruct (py_indices _ _) as [((a, b), st)|]; cbn; auto. now apply Forall_keep.
  - unfold py_insert. rewrite Forall_app. split; [auto using Forall_firstn'|]. inversion S; subst. constructor; auto using Forall_skipn'.
  - rewrite Forall_app. auto.
  - rewrite Forall_app. auto.
  - unfold py_pop, py_delitem. destruct (py_getitem l i); cbn [bind]; auto. destruct (py_pos _ _); cbn; auto.
    rewrite Forall_app. auto using Forall_firstn', Forall_skipn'.
  - now apply Forall_rev.
  - now apply Forall_repeat.
Qed.
(** a bytes-like argument holds bytes *)
Definition bop_ok (o : bop) : Prop := op_wf (fst o) /\ (snd o = true -> Forall byte (stored (fst o))).
Lemma bstep_correct s o : wf s -> Forall byte (contents s) -> bop_ok o ->
  fst (m_bstep s o) = fst (ba_step (contents s) (fst o)) /\ wf (snd (m_bstep s o))
  /\ contents (snd (m_bstep s o)) = snd (ba_step (contents s) (fst o))
  /\ Forall byte (contents (snd (m_bstep s o))).
Proof.
  intros W B (Wo & Bo). destruct o as (o, bl). cbn [fst snd] in *.
  assert (K : forall o', op_wf o' -> stored o' = stored o -> l_step (contents s) o' = l_step (contents s) o ->
     validated o bl = (if forallb byteb (stored o) then Ok o' else Err ValueError) ->
     fst (m_bstep s (o, bl)) = fst (ba_step (contents s) o) /\ wf (snd (m_bstep s (o, bl)))
     /\ contents (snd (m_bstep s (o, bl))) = snd (ba_step (contents s) o) /\ Forall byte (contents (snd (m_bstep s (o, bl))))).
  { intros o' W' S' L' V. unfold m_bstep, ba_step. cbn [fst snd]. rewrite V. fold byteb.
    change (fun x : Z => (0 <=? x) && (x <=? 255)) with byteb.
    destruct (forallb byteb (stored o)) eqn:E; cbn [fst snd]; auto.
    destruct (step_ok s o' W W') as (E1 & W1 & C1). rewrite L' in *. rewrite E1, C1. repeat split; auto.
    apply l_step_bytes; auto. now apply forallb_byte. }
  assert (V1 : forall x, (do _ <- (if out_of_byte_range x then Err ValueError else Ok tt); Ok o)
                         = (if forallb byteb [x] then Ok o else Err ValueError)).
  { intro x. cbn [forallb]. rewrite andb_true_r. unfold out_of_byte_range, byteb.
    destruct ((x <? 0) || (255 <? x)) eqn:E; [replace (_ && _) with false by lia|replace (_ && _) with true by lia]; reflexivity. }
  assert (V2 : forall v (f : pseq Z -> sop Z), wf v -> o = f v -> stored o = contents v -> (forall v', wf v' -> contents v' = contents v ->
      op_wf (f v') /\ stored (f v') = stored (f v) /\ l_step (contents s) (f v') = l_step (contents s) (f v)) ->
     exists o', op_wf o' /\ stored o' = stored o /\ l_step (contents s) o' = l_step (contents s) o /\
     (do v <- (if bl then Ok v else do l <- m_iter v; if existsb out_of_byte_range l then Err ValueError else Ok (PRaw false l)); Ok (f v))
     = (if forallb byteb (stored o) then Ok o' else Err ValueError)).
  { intros v f Wv -> S H. destruct bl.
    - exists (f v). repeat split; auto. cbn [bind]. rewrite (proj2 (forallb_byte _)); auto.
    - exists (f (PRaw false (contents v))). destruct (H (PRaw false (contents v)) I eq_refl) as (? & ? & ?). repeat split; auto.
      rewrite m_iter_ok by auto. cbn [bind]. rewrite existsb_byte, S. destruct (forallb byteb (contents v)); reflexivity. }
  destruct o; try (apply (K _ Wo eq_refl eq_refl); reflexivity); try (apply (K _ Wo eq_refl eq_refl); apply V1).
  - destruct (V2 v (fun v => OSetSlice sl v) Wo eq_refl eq_refl) as (o' & ? & ? & ? & ?);
      [intros v' ? E; cbn; rewrite E; auto|]. apply (K o'); auto.
  - destruct (V2 v (fun v => OExtend v) Wo eq_refl eq_refl) as (o' & ? & ? & ? & ?);
      [intros v' ? E; cbn; rewrite E; auto|]. apply (K o'); auto.
Qed.
Lemma brun_correct : forall ops s, wf s -> Forall byte (contents s) -> Forall bop_ok ops ->
  fst (m_brun s ops) = fst (ba_run (contents s) (map fst ops))
  /\ wf (snd (m_brun s ops)) /\ contents (snd (m_brun s ops)) = snd (ba_run (contents s) (map fst ops))
  /\ Forall byte (contents (snd (m_brun s ops))).
Proof.
  induction ops as [|o ops IH]; intros s W B F; cbn [m_brun ba_run map]; auto. inversion F; subst.
  destruct (bstep_correct s o W B H1) as (E & W' & C & B').
  destruct (m_bstep s o) as [r s'], (ba_step (contents s) (fst o)) as [r' l']. cbn [fst snd] in *. subst.
  destruct (IH s' W' B' H2) as (E & W2 & C & B2).
  destruct (m_brun s' ops), (ba_run (contents s') (map fst ops)). cbn [fst snd] in *. subst. auto.
Qed.
