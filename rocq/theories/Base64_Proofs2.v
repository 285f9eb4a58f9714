(** Proofs about Base64_Model, continued: round trip, line wrapping, decoding. *)
From Coq Require Import ZArith List Bool Lia ZifyBool ZifyNat.
From Verif Require Import Py Str_Model Str_Spec Seq_Proofs Str_Proofs Str_Proofs2 Base64_Model Base64_Spec Base64_Proofs.
Import ListNotations.
Open Scope Z_scope.
Ltac Zify.zify_post_hook ::= Z.div_mod_to_equations.

(** *** Wrapping *)
Lemma wrap_inner w x r i : 0 < w -> 0 < i mod w -> i mod w + slen x <= w -> 0 <= i ->
  wrap_loop w i (x ++ r) = x ++ wrap_loop w (i + slen x) r.
Proof.
  intros W. revert i; induction x as [|c x IH]; intros i H1 H2 H3; [cbn [app]; now rewrite slen_nil, Z.add_0_r|].
  rewrite slen_cons in *. cbn [app wrap_loop]. replace (i mod w =? 0) with false by lia. rewrite andb_false_r. cbn [app]. f_equal.
  destruct (Z.eq_dec (slen x) 0) as [E|E].
  - apply slen_0 in E. subst x. rewrite slen_nil. reflexivity.
  - assert (M : (i + 1) mod w = i mod w + 1).
    { symmetry. pose proof (Z.div_mod i w). apply Z.mod_unique with (q := i / w); [|lia]. pose proof (slen_nonneg x). lia. }
    rewrite IH; [|lia|lia|lia]. do 2 f_equal. lia.
Qed.
Lemma wrap_line w x r i : 0 < w -> i mod w = 0 -> x <> [] -> slen x <= w -> 0 <= i ->
  wrap_loop w i (x ++ r) = (if i =? 0 then [] else [10]) ++ x ++ wrap_loop w (i + slen x) r.
Proof.
  intros W M N L I. destruct x as [|c x]; [easy|]. rewrite slen_cons in *. cbn [app wrap_loop]. rewrite M. cbn [Z.eqb].
  rewrite andb_true_r. replace (if negb (i =? 0) then [10] else []) with (if i =? 0 then [] else [10]) by (destruct (i =? 0); reflexivity).
  f_equal. f_equal. destruct (Z.eq_dec (slen x) 0) as [E|E].
  - apply slen_0 in E. subst x. rewrite slen_nil. reflexivity.
  - pose proof (slen_nonneg x). assert (M' : (i + 1) mod w = 1).
    { symmetry. pose proof (Z.div_mod i w). apply Z.mod_unique with (q := i / w); lia. }
    rewrite wrap_inner by lia. do 2 f_equal. lia.
Qed.
Lemma wrap_lines w : 0 < w -> forall l i, l <> [] -> i mod w = 0 -> 0 <= i ->
  exists ls, lines_of w ls /\ concat ls = l /\ wrap_loop w i l = (if i =? 0 then [] else [10]) ++ join [10] ls.
Proof.
  intros W l. induction l as [l IH] using (well_founded_induction (Wf_nat.well_founded_ltof _ (@length Z))). unfold Wf_nat.ltof in IH.
  intros i N M I. set (x := firstn (Z.to_nat w) l). set (r := skipn (Z.to_nat w) l).
  assert (E : l = x ++ r) by (symmetry; apply firstn_skipn).
  assert (Nx : x <> []).
  { unfold x. destruct l; [easy|]. replace (Z.to_nat w) with (S (Z.to_nat (w - 1))) by lia. discriminate. }
  assert (Lx : slen x <= w) by (unfold slen, x; rewrite firstn_length; lia).
  rewrite E, (wrap_line w x r i) by auto. destruct r as [|c r'] eqn:R.
  - exists [x]. cbn [lines_of concat join]. rewrite app_nil_r. split; [|split; [reflexivity|]].
    + destruct x; [easy|]. unfold slen in Lx. cbn [length] in *. lia.
    + cbn [wrap_loop]. now rewrite app_nil_r.
  - rewrite <- R in *. assert (Sx : slen x = w).
    { unfold slen, x. rewrite firstn_length. assert (length r = length l - Z.to_nat w)%nat by (unfold r; apply skipn_length).
      rewrite R in H. cbn [length] in H. lia. }
    destruct (IH r) with (i := i + w) as (ls & H1 & H2 & H3).
    + rewrite E, app_length. destruct x; [easy|]. cbn [length]. lia.
    + rewrite R. discriminate.
    + replace (i + w) with (i + 1 * w) by lia. now rewrite Z.mod_add by lia.
    + lia.
    + exists (x :: ls). split; [|split].
      * destruct ls; [destruct H1|]. split; [exact Sx|exact H1].
      * cbn [concat]. now rewrite H2.
      * rewrite Sx, H3. replace (i + w =? 0) with false by lia. f_equal.
        destruct ls; [destruct H1|]. reflexivity.
Qed.
Lemma filter_wrap w l : forall i, filter (fun c => negb (c =? 10)) (wrap_loop w i l) = filter (fun c => negb (c =? 10)) l.
Proof.
  induction l as [|c l IH]; intro i; [reflexivity|]. cbn [wrap_loop]. rewrite filter_app.
  set (b := negb (i =? 0) && (i mod w =? 0)).
  replace (filter _ (if b then [10] else [])) with (@nil Z) by (destruct b; reflexivity).
  cbn [app filter]. rewrite IH. reflexivity.
Qed.
Lemma filter_id (f : Z -> bool) l : (forall c, In c l -> f c = true) -> filter f l = l.
Proof.
  induction l as [|c l IH]; intro H; [reflexivity|]. cbn [filter]. rewrite H by (left; reflexivity). f_equal. apply IH. intros; apply H; now right.
Qed.

(** *** Round trip *)
Definition after_remap (strict padded : bool) (rp : res (list Z * Z)) : res (list Z) :=
  do rp <- rp;
  let '(input_ints, padding_count) := rp in
  let n := slen input_ints in
  let uneven := negb (n mod 4 =? 0) in
  do _ <- (if uneven then
             if n mod 4 =? 1 then Err BinasciiError
             else if padded then
               let expected := 4 - n mod 4 in
               if padding_count <? expected then Err BinasciiError
               else if strict && (expected <? padding_count) then Err BinasciiError
               else Ok tt
             else Ok tt
           else Ok tt);
  Ok (if uneven then sslice (bit_chunk_iter input_ints 6 8) None (Some (-1)) else bit_chunk_iter input_ints 6 8).
Lemma a2b_after data strict padded a t :
  (if is_std a then Ok decode_base64_map else map_res reverse_map (encode_map_from_alphabet a)) = Ok t ->
  m_a2b_base64 data strict padded a = after_remap strict padded (remap t strict data [] 0).
Proof. intro H. unfold m_a2b_base64. rewrite H. reflexivity. Qed.
Lemma after_encoded strict padded data : Forall octet data ->
  after_remap strict padded (Ok (enc6 data, if padded then Z.of_nat (n_pads (slen data mod 3)) else 0)) = Ok data.
Proof.
  intro B. unfold after_remap. cbn [bind]. rewrite chunk68 by now apply enc6_sextet. rewrite dec_enc by auto.
  rewrite enc6_len. destruct (slen data mod 3) as [|[p|p|]|p] eqn:E; try (exfalso; lia);
  destruct strict, padded; reflexivity.
Qed.
Lemma unwrapped_no_newline a padded data : length a = 64%nat -> ~ In 10 a -> Forall octet data -> forall c, In c (unwrapped a padded data) -> c <> 10.
Proof.
  intros L N B c H ->. unfold unwrapped in H. rewrite b64_encode_eq in H. apply in_app_or in H. destruct H as [H|H].
  - apply in_map_iff in H. destruct H as (v & E & I). apply N. rewrite <- E. apply nth_In.
    pose proof (enc6_sextet data B) as S. rewrite Forall_forall in S. specialize (S v I). unfold sextet in S. lia.
  - destruct padded; [|easy]. apply repeat_spec in H. discriminate.
Qed.
Lemma remap_unwrapped a t m padded data : length a = 64%nat -> Forall octet data ->
  (forall v, sextet v -> lookup t (at_ a v) = Some v) -> lookup t 61 = None ->
  remap t m (unwrapped a padded data) [] 0 = Ok (enc6 data, if padded then Z.of_nat (n_pads (slen data mod 3)) else 0).
Proof.
  intros L B T P. unfold unwrapped. rewrite b64_encode_eq. pose proof (enc6_sextet data B) as S. rewrite Forall_forall in S.
  assert (K : forall rest out l, (forall v, In v l -> sextet v) -> remap t m (map (at_ a) l ++ rest) out 0 = remap t m rest (out ++ l) 0).
  { intros rest out l; revert out; induction l as [|v l IH]; intros out H; cbn [map app]; [now rewrite app_nil_r|].
    cbn [remap]. rewrite T by (apply H; left; reflexivity). cbn [Z.eqb negb].
    rewrite IH by (intros; apply H; right; auto). now rewrite <- app_assoc. }
  rewrite K by auto. cbn [app]. destruct padded; [now rewrite remap_pads by auto|reflexivity].
Qed.
Lemma roundtrip data newline wrapcol padded a :
  length a = 64%nat -> NoDup a -> ~ In 61 a -> ~ In 10 a -> Forall octet data ->
  exists e, m_b2a_base64 data newline wrapcol padded a = Ok e /\ m_a2b_base64 e false padded a = Ok data
  /\ (newline = false -> wrapcol = 0 -> m_a2b_base64 e true padded a = Ok data).
Proof.
  intros L N P W B. eexists. split; [apply b2a_eq; auto|].
  destruct (dec_table_of a L N) as (t & T1 & T2 & T3).
  split.
  - rewrite (a2b_after _ _ _ _ t T1), remap_newlines by auto. rewrite filter_app.
    set (b := negb (wrapcol =? 0) && negb (slen (unwrapped a padded data) =? 0)).
    replace (filter _ (if b then wrap_loop _ _ _ else _)) with (unwrapped a padded data).
    2: { pose proof (unwrapped_no_newline a padded data L W B) as U.
         destruct b; [rewrite filter_wrap|]; symmetry; apply filter_id; intros c I; specialize (U c I); lia. }
    replace (filter _ (if newline then [10] else [])) with (@nil Z) by (destruct newline; reflexivity).
    rewrite app_nil_r, (remap_unwrapped a t false padded data) by auto. now apply after_encoded.
  - intros -> ->. cbn [Z.eqb negb andb]. rewrite app_nil_r, (a2b_after _ _ _ _ t T1), (remap_unwrapped a t true padded data) by auto.
    now apply after_encoded.
Qed.

(** *** Decoding against CPython *)
Definition is_data (c : Z) : bool := match b64_value c with Some _ => true | None => false end.
Definition to_res (o : option (list Z)) : res (list Z) := match o with Some x => Ok x | None => Err BinasciiError end.
(** the values of the data characters *)
Fixpoint values (l : list Z) : list Z :=
  match l with [] => [] | c :: r => match b64_value c with Some v => v :: values r | None => values r end end.
Definition n_pad (l : list Z) : Z := slen (filter (fun c => c =? 61) l).
Lemma values_sextet l : Forall sextet (values l).
Proof. induction l as [|c l IH]; cbn [values]; [constructor|]. destruct (b64_value c) eqn:E; auto. constructor; auto. eapply value_sextet; eauto. Qed.
Lemma pad_not_data : b64_value 61 = None. Proof. reflexivity. Qed.

(** the decoder's state after the characters so far *)
Definition feed1 (s : st) (v : Z) : st :=
  if quad s =? 0 then mkSt (out s) 1 v 0 (started s)
  else if quad s =? 1 then mkSt (out s ++ [left_ s * 4 + v / 16]) 2 (v mod 16) 0 (started s)
  else if quad s =? 2 then mkSt (out s ++ [left_ s * 16 + v / 4]) 3 (v mod 4) 0 (started s)
  else mkSt (out s ++ [left_ s * 64 + v]) 0 0 0 (started s).
Lemma feed_all l : forall o sd, let s := fold_left feed1 l (mkSt o 0 0 0 sd) in
  out s = o ++ dec8 l /\ quad s = slen l mod 4 /\ pads s = 0 /\ started s = sd.
Proof.
  induction l as [|a|a b|a b c|a b c d r IH] using list_ind4; intros o sd; cbn [fold_left dec8].
  - cbn. now rewrite app_nil_r.
  - cbn. now rewrite app_nil_r.
  - cbn. auto.
  - cbn. rewrite <- app_assoc. auto.
  - replace (feed1 (feed1 (feed1 (feed1 (mkSt o 0 0 0 sd) a) b) c) d) with
      (mkSt (o ++ [a * 4 + b / 16; b mod 16 * 16 + c / 4; c mod 4 * 64 + d]) 0 0 0 sd)
      by (unfold feed1; cbn [quad out left_ pads started Z.eqb Pos.eqb]; now rewrite <- !app_assoc).
    destruct (IH (o ++ [a * 4 + b / 16; b mod 16 * 16 + c / 4; c mod 4 * 64 + d]) sd) as (H1 & H2 & H3 & H4).
    rewrite H1, H2, H3, H4. split; [now rewrite <- app_assoc|]. split; [rewrite !slen_cons; lia|]. auto.
Qed.
Lemma run_data strict c v r s : b64_value c = Some v -> (strict && started s) = false ->
  py_run strict (c :: r) s = py_run strict r (feed1 s v).
Proof.
  intros E S. cbn [py_run]. replace (c =? pad) with false.
  2: { symmetry. apply Z.eqb_neq. intros ->. discriminate. }
  rewrite E, S. unfold feed1. destruct (quad s =? 0); [reflexivity|]. destruct (quad s =? 1); [reflexivity|]. destruct (quad s =? 2); reflexivity.
Qed.
Lemma run_no_pad D P s : (forall c, In c D -> c <> 61) -> py_run false (D ++ P) s = py_run false P (fold_left feed1 (values D) s).
Proof.
  revert s; induction D as [|c D IH]; intros s H; [reflexivity|]. cbn [app values].
  assert (H' : forall c, In c D -> c <> 61) by (intros; apply H; now right).
  destruct (b64_value c) as [v|] eqn:E.
  - rewrite (run_data false c v) by auto. cbn [fold_left]. auto.
  - cbn [py_run]. specialize (H c (or_introl eq_refl)). replace (c =? pad) with false by (unfold pad; lia). rewrite E. auto.
Qed.
Lemma run_pads P s : (forall c, In c P -> is_data c = false) -> 0 <= quad s <= 3 -> (quad s < 2 -> pads s = 0) -> (2 <= quad s -> quad s + pads s < 4) ->
  py_run false P s = if quad s =? 0 then Some (out s) else if (2 <=? quad s) && (4 <=? quad s + pads s + n_pad P) then Some (out s) else None.
Proof.
  revert s; induction P as [|c P IH]; intros s H Q Z0 Z2.
  - cbn [py_run]. unfold n_pad. cbn [filter]. change (slen []) with 0. destruct (quad s =? 0) eqn:E; [reflexivity|].
    destruct (2 <=? quad s) eqn:F; [|reflexivity]. now replace (4 <=? quad s + pads s + 0) with false by lia.
  - assert (H' : forall c, In c P -> is_data c = false) by (intros; apply H; now right).
    specialize (H c (or_introl eq_refl)). unfold is_data in H. cbn [py_run]. destruct (c =? pad) eqn:E; unfold pad in E.
    + assert (NP : n_pad (c :: P) = n_pad P + 1) by (unfold n_pad; cbn [filter]; rewrite E; apply slen_cons). rewrite NP.
      pose proof (slen_nonneg (filter (fun c => c =? 61) P)). fold (n_pad P) in H0.
      destruct (2 <=? quad s) eqn:F; cbn [andb].
      * destruct (4 <=? quad s + (pads s + 1)) eqn:G.
        -- replace (quad s =? 0) with false by lia. now replace (4 <=? quad s + pads s + (n_pad P + 1)) with true by lia.
        -- rewrite IH; cbn [quad pads out]; auto; try lia. rewrite F. cbn [andb]. destruct (quad s =? 0); [reflexivity|].
           now replace (quad s + (pads s + 1) + n_pad P) with (quad s + pads s + (n_pad P + 1)) by lia.
      * rewrite IH; cbn [quad pads out]; auto; try lia. rewrite F. reflexivity.
    + destruct (b64_value c); [discriminate|]. rewrite IH by auto. unfold n_pad. cbn [filter]. now rewrite E.
Qed.
Lemma remap_no_pad D P o : (forall c, In c D -> c <> 61) ->
  remap decode_base64_map false (D ++ P) o 0 = remap decode_base64_map false P (o ++ values D) 0.
Proof.
  revert o; induction D as [|c D IH]; intros o H; cbn [app values]; [now rewrite app_nil_r|].
  assert (H' : forall c, In c D -> c <> 61) by (intros; apply H; now right). specialize (H c (or_introl eq_refl)).
  cbn [remap]. rewrite decode_lookup. destruct (b64_value c) as [v|].
  - cbn [Z.eqb negb]. rewrite IH by auto. now rewrite <- app_assoc.
  - replace (c =? 61) with false by lia. auto.
Qed.
Lemma remap_no_data P o p : (forall c, In c P -> is_data c = false) ->
  remap decode_base64_map false P o p = Ok (o, p + n_pad P).
Proof.
  revert p; induction P as [|c P IH]; intros p H; [unfold n_pad; cbn; now rewrite Z.add_0_r|].
  assert (H' : forall c, In c P -> is_data c = false) by (intros; apply H; now right). specialize (H c (or_introl eq_refl)).
  unfold is_data in H. cbn [remap]. rewrite decode_lookup. destruct (b64_value c); [discriminate|].
  unfold n_pad. cbn [filter]. destruct (c =? 61); [|now apply IH]. rewrite IH by auto. rewrite slen_cons. unfold n_pad. do 2 f_equal. lia.
Qed.
Lemma is_std_std : is_std std_alphabet = true.
Proof. unfold is_std. now destruct (list_eq_dec _ _ _). Qed.
Lemma after_std strict v k : Forall sextet v ->
  after_remap strict true (Ok (v, k)) =
  (let q := slen v mod 4 in
   if q =? 0 then Ok (dec8 v) else if q =? 1 then Err BinasciiError
   else if (k <? 4 - q) || (strict && (4 - q <? k)) then Err BinasciiError else Ok (dec8 v)).
Proof.
  intro S. unfold after_remap. cbn [bind]. rewrite chunk68 by auto. cbn zeta.
  destruct (slen v mod 4 =? 0); cbn [negb]; [reflexivity|]. destruct (slen v mod 4 =? 1); [reflexivity|].
  destruct (k <? _); cbn [orb]; [reflexivity|]. destruct (strict && _); reflexivity.
Qed.
(** Non-strict: no data character after a pad character *)
Lemma decode_lenient D P : (forall c, In c D -> c <> 61) -> (forall c, In c P -> is_data c = false) ->
  m_a2b_base64 (D ++ P) false true std_alphabet = to_res (py_a2b false (D ++ P)).
Proof.
  intros HD HP. rewrite (a2b_after _ _ _ _ decode_base64_map) by now rewrite is_std_std.
  rewrite remap_no_pad, remap_no_data by auto. cbn [app]. rewrite Z.add_0_l, after_std by apply values_sextet.
  unfold py_a2b. cbn [andb]. rewrite run_no_pad by auto.
  destruct (feed_all (values D) [] false) as (H1 & H2 & H3 & H4).
  set (s := fold_left feed1 (values D) (mkSt [] 0 0 0 false)) in *.
  rewrite run_pads; auto; try lia. rewrite H1, H2, H3. cbn [app andb]. cbn zeta. rewrite orb_false_r, Z.add_0_r.
  set (q := slen (values D) mod 4) in *. assert (0 <= q < 4) by (subst q; lia).
  destruct (q =? 0) eqn:E0; [reflexivity|]. destruct (q =? 1) eqn:E1.
  - now replace (2 <=? q) with false by lia.
  - replace (2 <=? q) with true by lia. cbn [andb]. destruct (n_pad P <? 4 - q) eqn:F.
    + now replace (4 <=? q + n_pad P) with false by lia.
    + now replace (4 <=? q + n_pad P) with true by lia.
Qed.

(** Strict *)
Lemma remap_strict_bad l o p : 0 < p -> (exists c, In c l /\ c <> 61) -> remap decode_base64_map true l o p = Err BinasciiError.
Proof.
  revert p; induction l as [|c l IH]; intros p Hp (d & I & D); [easy|]. cbn [remap]. rewrite decode_lookup.
  destruct (b64_value c) as [v|]; [now replace (p =? 0) with false by lia|].
  destruct (c =? 61) eqn:E; [|reflexivity]. apply IH; [lia|]. exists d. destruct I as [->|I]; [lia|auto].
Qed.
Lemma run_strict_bad l s : started s = true -> (exists c, In c l /\ c <> 61) -> py_run true l s = None.
Proof.
  revert s; induction l as [|c l IH]; intros s S (d & I & D); [easy|]. cbn [py_run]. unfold pad.
  destruct (c =? 61) eqn:E.
  - assert (J : In d l) by (destruct I as [->|I]; [lia|auto]).
    destruct (_ && _).
    + destruct l; [easy|]. reflexivity.
    + apply IH; [reflexivity|eauto].
  - destruct (b64_value c); [|reflexivity]. now rewrite S.
Qed.
Lemma run_strict_pads k s : 0 <= quad s <= 3 -> 0 <= pads s -> (quad s < 2 -> pads s = 0) -> (2 <= quad s -> quad s + pads s < 4) ->
  py_run true (repeat 61 k) s =
  if quad s =? 0 then Some (out s) else if (2 <=? quad s) && (quad s + pads s + Z.of_nat k =? 4) then Some (out s) else None.
Proof.
  revert s; induction k as [|k IH]; intros s Q Z1 Z0 Z2; cbn [repeat py_run].
  - change (Z.of_nat 0) with 0. destruct (quad s =? 0); [reflexivity|]. destruct (2 <=? quad s) eqn:F; [|reflexivity].
    now replace (quad s + pads s + 0 =? 4) with false by lia.
  - change (61 =? pad) with true. cbn iota. destruct (2 <=? quad s) eqn:F; cbn [andb].
    + replace (quad s =? 0) with false by lia. destruct (4 <=? quad s + (pads s + 1)) eqn:G.
      * rewrite repeat_length. destruct k; cbn [Nat.eqb negb].
        -- now replace (quad s + pads s + Z.of_nat 1 =? 4) with true by lia.
        -- now replace (quad s + pads s + Z.of_nat (S (S k)) =? 4) with false by lia.
      * rewrite IH; cbn [quad pads out]; try lia. rewrite F. replace (quad s =? 0) with false by lia. cbn [andb].
        now replace (quad s + (pads s + 1) + Z.of_nat k =? 4) with (quad s + pads s + Z.of_nat (S k) =? 4) by lia.
    + rewrite IH; cbn [quad pads out]; try lia. rewrite F. reflexivity.
Qed.
Lemma all_pads l : (exists c, In c l /\ c <> 61) \/ exists k, l = repeat 61 k.
Proof.
  induction l as [|c l [(d & I & D)|[k ->]]].
  - right. now exists O.
  - left. exists d. split; [now right|auto].
  - destruct (Z.eq_dec c 61) as [->|N]; [right; now exists (S k)|left; exists c; split; [now left|auto]].
Qed.
Lemma decode_strict_pads v k : Forall sextet v -> let s := fold_left feed1 v (mkSt [] 0 0 0 false) in
  after_remap true true (Ok (v, Z.of_nat k)) = to_res (py_run true (repeat 61 k) s).
Proof.
  intros S s. destruct (feed_all v [] false) as (H1 & H2 & H3 & H4). fold s in H1, H2, H3, H4. rewrite after_std by auto.
  rewrite run_strict_pads; try lia. rewrite H1, H2, H3. cbn [app andb]. cbn zeta. rewrite Z.add_0_r.
  set (q := slen v mod 4) in *. assert (0 <= q < 4) by (subst q; lia).
  destruct (q =? 0) eqn:E0; [reflexivity|]. destruct (q =? 1) eqn:E1.
  - now replace (2 <=? q) with false by lia.
  - replace (2 <=? q) with true by lia. cbn [andb]. destruct (q + Z.of_nat k =? 4) eqn:F.
    + now replace ((Z.of_nat k <? 4 - q) || (4 - q <? Z.of_nat k)) with false by lia.
    + now replace ((Z.of_nat k <? 4 - q) || (4 - q <? Z.of_nat k)) with true by lia.
Qed.
Lemma decode_strict_rest l : forall v, Forall sextet v -> 
  after_remap true true (remap decode_base64_map true l v 0) = to_res (py_run true l (fold_left feed1 v (mkSt [] 0 0 0 false))).
Proof.
  induction l as [|c l IH]; intros v S.
  - cbn [remap]. exact (decode_strict_pads v 0 S).
  - destruct (b64_value c) as [x|] eqn:E.
    + rewrite (run_data true c x); auto.
      2: { destruct (feed_all v [] false) as (_ & _ & _ & ->). reflexivity. }
      cbn [remap]. rewrite decode_lookup, E. cbn [Z.eqb negb]. rewrite IH.
      * rewrite fold_left_app. reflexivity.
      * apply Forall_app. split; auto. constructor; auto. eapply value_sextet; eauto.
    + destruct (Z.eq_dec c 61) as [->|N].
      * destruct (all_pads l) as [X|[k ->]].
        -- cbn [remap]. rewrite decode_lookup, E. change (61 =? 61) with true. cbn iota. rewrite remap_strict_bad by (auto; lia).
           cbn [py_run]. change (61 =? pad) with true. cbn iota.
           destruct (_ && _).
           ++ destruct X as (d & I & D). destruct l; [easy|]. reflexivity.
           ++ rewrite run_strict_bad; auto.
        -- change (61 :: repeat 61 k) with (repeat 61 (Datatypes.S k)). rewrite remap_pads by reflexivity. now apply decode_strict_pads.
      * cbn [remap py_run]. rewrite decode_lookup, E. replace (c =? 61) with false by lia. replace (c =? pad) with false by (unfold pad; lia). reflexivity.
Qed.
Lemma decode_strict64 l : hd 0 l <> 61 -> m_a2b_base64 l true true std_alphabet = to_res (py_a2b true l).
Proof.
  intro H. rewrite (a2b_after _ _ _ _ decode_base64_map) by now rewrite is_std_std.
  unfold py_a2b. replace (true && _) with false.
  - exact (decode_strict_rest l [] (Forall_nil _)).
  - destruct l; [reflexivity|]. cbn [hd] in H. cbn [andb]. unfold pad. lia.
Qed.
