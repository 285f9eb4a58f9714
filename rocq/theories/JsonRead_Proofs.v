(** Proofs about Json_Model: json.loads accepts exactly the texts of the grammar. *)
From Coq Require Import ZArith List Bool Lia ZifyBool ZifyNat.
From Verif Require Import Py Json_Model Json_Spec Json_Proofs.
Import ListNotations.
Open Scope Z_scope.

(** * dict(pairs) *)
Lemma seq_same : forall a b, Json_Model.seq a b = same a b.
Proof. induction a as [|x a IH]; intros [|y b]; cbn; [reflexivity..|]. now rewrite IH. Qed.
Lemma same_iff : forall a b, same a b = true <-> a = b.
Proof.
  induction a as [|x a IH]; intros [|y b]; cbn; try (split; [discriminate|intro X; discriminate X]); [tauto|].
  rewrite andb_true_iff, Z.eqb_eq, IH. split; [intros [-> ->]; reflexivity|intro E; inversion E; auto].
Qed.
Lemma same_sym : forall a b, same a b = same b a.
Proof. intros a b. apply eq_iff_eq_true. rewrite !same_iff. split; congruence. Qed.
Lemma filter_length_le : forall {A} (p : A -> bool) l, (length (filter p l) <= length l)%nat.
Proof. intros A p. induction l as [|a l IH]; cbn; [lia|]. destruct (p a); cbn; lia. Qed.
Section Dict.
Context {V : Type}.
Definition inkeys (k : str) (acc : list (str * V)) : bool := existsb (fun p => same k (fst p)) acc.
Definition others (acc l : list (str * V)) : list (str * V) := filter (fun p => negb (inkeys (fst p) acc)) l.
Lemma assign_in : forall k v acc, inkeys k acc = true -> NoDup (map fst acc) ->
  assign k v acc = map (fun p => (fst p, if same k (fst p) then v else snd p)) acc.
Proof.
  intros k v. induction acc as [|[k' v'] acc IH]; intros I N; [discriminate|]. cbn [assign map fst snd]. rewrite seq_same.
  inversion N as [|x l NI N' E]; subst. cbn [inkeys existsb fst] in I. destruct (same k k') eqn:S1.
  - f_equal. apply same_iff in S1. subst k'. clear - NI. induction acc as [|[a b] acc IH]; [reflexivity|]. cbn in *.
    destruct (same k a) eqn:S; [apply same_iff in S; subst; tauto|]. f_equal. apply IH. tauto.
  - f_equal. apply IH; [exact I|assumption].
Qed.
Lemma assign_out : forall k (v : V) acc, inkeys k acc = false -> assign k v acc = acc ++ [(k, v)].
Proof.
  intros k v. induction acc as [|[k' v'] acc IH]; intro I; [reflexivity|]. cbn [inkeys existsb fst] in I. apply orb_false_iff in I. destruct I as [A B].
  cbn [assign app]. rewrite seq_same, A. f_equal. now apply IH.
Qed.
Lemma last_of_others : forall k (v : V) acc l, inkeys k acc = false -> last_of k v (others acc l) = last_of k v l.
Proof.
  intros k v acc l I. revert v. induction l as [|[k' v'] l IH]; intro v; [reflexivity|]. cbn [others filter fst]. destruct (inkeys k' acc) eqn:J; cbn [negb].
  - cbn [last_of]. destruct (same k' k) eqn:S; [apply same_iff in S; subst; congruence|]. apply IH.
  - cbn [last_of]. apply IH.
Qed.
Lemma inkeys_app : forall k acc k' (v : V), inkeys k (acc ++ [(k', v)]) = inkeys k acc || same k k'.
Proof. intros. unfold inkeys. rewrite existsb_app. cbn. now rewrite orb_false_r. Qed.
Lemma drop_others : forall k (v : V) acc l, drop_key k (others acc l) = others (acc ++ [(k, v)]) l.
Proof.
  intros k v acc. induction l as [|[k' v'] l IH]; [reflexivity|]. cbn [others filter fst]. rewrite inkeys_app. destruct (inkeys k' acc); cbn [negb orb].
  - apply IH.
  - cbn [drop_key]. destruct (same k' k); cbn [negb]; [apply IH|]. f_equal. apply IH.
Qed.
Lemma inkeys_iff : forall k acc, inkeys k acc = true <-> In k (map fst acc).
Proof.
  intros k acc. unfold inkeys. rewrite existsb_exists, in_map_iff. split; intros (p & A & B); exists p; [apply same_iff in B|]; auto.
  split; [assumption|]. now apply same_iff.
Qed.
Lemma as_dict_more : forall n m (l : list (str * V)), (length l <= n)%nat -> (length l <= m)%nat -> as_dict n l = as_dict m l.
Proof.
  assert (D : forall k (l : list (str * V)), (length (drop_key k l) <= length l)%nat).
  { intros k. induction l as [|[a b] l IH]; cbn; [lia|]. destruct (same a k); cbn; lia. }
  induction n as [|n IH]; intros m l A B; (destruct l as [|[k v] l]; [destruct m; reflexivity|]); cbn [length] in *; [lia|]. destruct m; [lia|].
  cbn [as_dict]. f_equal. apply IH; pose proof (D k l); lia.
Qed.
Lemma fold_assign : forall l acc, NoDup (map fst acc) ->
  fold_left (fun d p => assign (fst p) (snd p) d) l acc =
  map (fun p => (fst p, last_of (fst p) (snd p) l)) acc ++ as_dict (length l) (others acc l).
Proof.
  induction l as [|[k v] l IH]; intros acc N; cbn [fold_left length].
  - cbn [others filter last_of as_dict]. rewrite app_nil_r. induction acc as [|[a b] acc IHa]; [reflexivity|]. cbn. f_equal. apply IHa. now inversion N.
  - cbn [fst snd]. destruct (inkeys k acc) eqn:I.
    + rewrite assign_in by assumption. rewrite IH; [|rewrite map_map; cbn; exact N]. rewrite map_map. cbn [fst snd]. f_equal.
      cbn [others filter fst]. rewrite I. cbn [negb]. 
      assert (Same : others (map (fun p => (fst p, if same k (fst p) then v else snd p)) acc) l = others acc l).
      { unfold others. apply filter_ext. intros [a b]. cbn [fst]. f_equal. apply eq_iff_eq_true. rewrite !inkeys_iff, map_map. cbn [fst]. tauto. }
      rewrite Same. apply as_dict_more; unfold others; pose proof (filter_length_le (fun p => negb (inkeys (fst p) acc)) l); lia.
    + rewrite assign_out by assumption. rewrite IH.
      * rewrite map_app. cbn [map fst snd]. cbn [others filter fst]. rewrite I. cbn [negb as_dict]. rewrite <- app_assoc. cbn [app].
        change (filter (fun p => negb (inkeys (fst p) acc)) l) with (others acc l). rewrite last_of_others by assumption.
        rewrite (drop_others k v acc l). f_equal. cbn [last_of]. apply map_ext_in. intros [a b] In1. cbn [fst snd last_of].
        destruct (same k a) eqn:S; [|reflexivity]. apply same_iff in S. subst. exfalso. assert (inkeys a acc = true); [|congruence].
        apply inkeys_iff. apply in_map_iff. exists (a, b). auto.
      * rewrite map_app. cbn. apply NoDup_rev in N. rewrite <- (rev_involutive (map fst acc ++ [k])). apply NoDup_rev. rewrite rev_app_distr. cbn.
        constructor; [|assumption]. rewrite <- in_rev. intro X. apply inkeys_iff in X. congruence.
Qed.
Lemma dict_of_as_dict : forall l : list (str * V), dict_of l = as_dict (length l) l.
Proof.
  intro l. unfold dict_of. rewrite fold_assign by constructor. cbn [map app]. f_equal. unfold others. clear. induction l as [|p l IH]; [reflexivity|].
  cbn. f_equal. exact IH.
Qed.
End Dict.

Ltac app_eq := repeat (rewrite <- ?app_assoc; cbn [app]); reflexivity.

Scheme value_ind3 := Minimality for value Sort Prop
with elements_ind3 := Minimality for elements Sort Prop
with members_ind3 := Minimality for members Sort Prop.
Combined Scheme grammar_ind from value_ind3, elements_ind3, members_ind3.

Section Read.
Variable F : Type.
Variables nan inf neginf : F.
Variable parse_float : str -> res F.
Variable parse_int : str -> res Z.
Variable int16 : str -> res Z.
Variable strict : bool.
Notation hex := (loose int16).
Notation val_ := (value F nan inf neginf parse_float parse_int hex strict true).
Notation els := (elements F nan inf neginf parse_float parse_int hex strict true).
Notation mems := (members F nan inf neginf parse_float parse_int hex strict true).
Notation scan := (scan_once F nan inf neginf parse_float parse_int int16).
Notation arr := (array_loop F nan inf neginf parse_float parse_int int16).
Notation obj := (object_loop F nan inf neginf parse_float parse_int int16).

Lemma els_blank : forall b t vs, blank b -> els t vs -> els (b ++ t) vs.
Proof.
  intros b t vs B H. destruct H as [b1 t b2 v B1 V B2|b1 t b2 v t' vs B1 V B2 E].
  - rewrite app_assoc. constructor; [now apply blank_app|assumption..].
  - rewrite app_assoc. constructor; [now apply blank_app|assumption..].
Qed.
Lemma mems_blank : forall b t vs, blank b -> mems t vs -> mems (b ++ t) vs.
Proof.
  intros b t vs B H. destruct H as [b1 k s b2 b3 t v b4 B1 K B2 B3 V B4|b1 k s b2 b3 t v b4 t' ps B1 K B2 B3 V B4 M].
  - rewrite app_assoc. constructor; [now apply blank_app|assumption..].
  - rewrite app_assoc. constructor; [now apply blank_app|assumption..].
Qed.
Lemma blank_nil : blank []. Proof. constructor. Qed.
Lemma object_open : forall r : str, match r with c :: _ => if negb (c =? 34) && is_ws c then w r else r | [] => w r end = w r.
Proof.
  intros [|c r]; [reflexivity|]. cbn [w]. destruct (is_ws c) eqn:W; [|now rewrite andb_false_r]. rewrite andb_true_r.
  apply is_ws_iff in W. destruct (c =? 34) eqn:?; [lia|reflexivity].
Qed.
Lemma colon_step : forall s : str, match s with c :: _ => if negb (c =? 58) then w s else s | [] => [] end = w s.
Proof. intros [|c s]; [reflexivity|]. destruct (c =? 58) eqn:E; cbn [negb]; [|reflexivity]. rewrite w_stop; [reflexivity|]. unfold is_ws. lia. Qed.

Lemma obj_eq : forall n s pairs, obj (S n) strict s pairs =
  jbind (parse_string int16 strict s) (fun '(k, s) =>
    match w s with
    | [] => JBad
    | c :: s =>
        if negb (c =? 58) then JBad
        else jbind (expecting_value (scan n strict (w s))) (fun '(v, s) =>
          match w s with
          | [] => JBad
          | c :: s =>
              if c =? 125 then JOk (JDict (dict_of (pairs ++ [(k, v)])), s)
              else if negb (c =? 44) then JBad
              else match w s with
                   | [] => JBad
                   | c :: s => if negb (c =? 34) then JBad else obj n strict s (pairs ++ [(k, v)])
                   end
          end)
    end).
Proof.
  intros n s pairs. transitivity (jbind (parse_string int16 strict s) (fun '(k, s) =>
        let s := match s with c :: _ => if negb (c =? 58) then w s else s | [] => [] end in
        match s with
        | [] => JBad
        | c :: s =>
            if negb (c =? 58) then JBad
            else jbind (expecting_value (scan n strict (skip_some s))) (fun '(v, s) =>
              let pairs := pairs ++ [(k, v)] in
              let s := match s with c :: r => if is_ws c then w r else s | [] => [] end in
              match s with
              | [] => JBad
              | c :: s =>
                  if c =? 125 then JOk (JDict (dict_of pairs), s)
                  else if negb (c =? 44) then JBad
                  else match w s with
                       | [] => JBad
                       | c :: s => if negb (c =? 34) then JBad else obj n strict s pairs
                       end
              end)
        end)); [reflexivity|].
  destruct (parse_string int16 strict s) as [[k s1]| | | |]; cbn [jbind]; try reflexivity. cbv zeta. rewrite colon_step. destruct (w s1) as [|c s2]; [reflexivity|].
  destruct (negb (c =? 58)); [reflexivity|]. rewrite skip_some_w. destruct (scan n strict (w s2)) as [[v s3]| | | |]; cbn [expecting_value jbind]; try reflexivity.
  rewrite ws_step. reflexivity.
Qed.
Lemma arr_eq : forall n s values, arr (S n) strict s values =
  jbind (expecting_value (scan n strict s)) (fun '(v, s) =>
    match w s with
    | [] => JBad
    | c :: s =>
        if c =? 93 then JOk (JList (values ++ [v]), s)
        else if negb (c =? 44) then JBad
        else arr n strict (w s) (values ++ [v])
    end).
Proof.
  intros n s values. transitivity (jbind (expecting_value (scan n strict s)) (fun '(v, s) =>
        let values := values ++ [v] in
        let s := match s with c :: r => if is_ws c then w r else s | [] => [] end in
        match s with
        | [] => JBad
        | c :: s =>
            if c =? 93 then JOk (JList values, s)
            else if negb (c =? 44) then JBad
            else arr n strict (skip_some s) values
        end)); [reflexivity|].
  destruct (scan n strict s) as [[v s3]| | | |]; cbn [expecting_value jbind]; try reflexivity. cbv zeta. rewrite ws_step. destruct (w s3) as [|c s4]; [reflexivity|].
  rewrite skip_some_w. reflexivity.
Qed.
Lemma scan_obj : forall n r, scan (S n) strict (123 :: r) =
  match w r with
  | c :: s' => if c =? 125 then JOk (JDict [], s') else if negb (c =? 34) then JBad else obj n strict s' []
  | [] => JBad
  end.
Proof.
  intros n r. transitivity (match (match r with c :: _ => if negb (c =? 34) && is_ws c then w r else r | [] => w r end) with
    | c :: s' => if c =? 125 then JOk (JDict [], s') else if negb (c =? 34) then JBad else obj n strict s' []
    | [] => JBad end); [reflexivity|]. now rewrite object_open.
Qed.
Lemma scan_arr : forall n r, scan (S n) strict (91 :: r) =
  match w r with
  | c :: s' => if c =? 93 then JOk (JList [], s') else arr n strict (w r) []
  | [] => arr n strict (w r) []
  end.
Proof.
  intros n r. rewrite <- (ws_step r). reflexivity.
Qed.

Lemma number_sound : forall s i f e r, match_number s = Some (i, f, e, r) -> s = (i ++ f ++ e) ++ r.
Proof. intros s i f e r H. apply number_split in H. destruct H as [-> _]. now rewrite <- !app_assoc. Qed.

Lemma read_sound : forall n,
  (forall s v r, scan n strict s = JOk (v, r) -> exists t, s = t ++ r /\ val_ t v) /\
  (forall s ps v r, obj n strict s ps = JOk (v, r) -> exists t qs, s = t ++ 125 :: r /\ v = JDict (dict_of (ps ++ qs)) /\ mems (34 :: t) qs) /\
  (forall s vs v r, arr n strict s vs = JOk (v, r) -> exists t us, s = t ++ 93 :: r /\ v = JList (vs ++ us) /\ els t us).
Proof.
  induction n as [|n (IHs & IHo & IHa)]; [split; [|split]; intros; discriminate|]. split; [|split].
  - intros s v r H. cbn [scan_once] in H. destruct s as [|c s]; [discriminate|].
    destruct (c =? 34) eqn:C1.
    { destruct (parse_string int16 strict s) as [[t q]| | | |] eqn:P; try discriminate. inversion H; subst. apply parse_string_iff in P.
      destruct P as (k & -> & K). assert (c = 34) as -> by lia. exists (34 :: k ++ [34]). split; [app_eq|]. now constructor. }
    destruct (c =? 123) eqn:C2.
    { assert (c = 123) as -> by lia. rewrite object_open in H. destruct (w_split s) as (b & B & E). destruct (w s) as [|d s'] eqn:W; [discriminate|]. subst s.
      destruct (d =? 125) eqn:D1.
      - inversion H; subst. assert (d = 125) as -> by lia. exists (123 :: b ++ [125]). split; [app_eq|]. now constructor.
      - destruct (negb (d =? 34)) eqn:D2; [discriminate|]. apply IHo in H. destruct H as (t & qs & -> & -> & M). assert (d = 34) as -> by lia.
        exists (123 :: (b ++ 34 :: t) ++ [125]). split; [app_eq|]. cbn [app]. rewrite dict_of_as_dict.
        apply value_object. now apply mems_blank. }
    destruct (c =? 91) eqn:C3.
    { assert (c = 91) as -> by lia. rewrite ws_step in H. destruct (w_split s) as (b & B & E).
      assert (X : (exists s', w s = 93 :: s' /\ JOk (JList [], s') = JOk (v, r)) \/ arr n strict (w s) [] = JOk (v, r)).
      { destruct (w s) as [|d s'] eqn:W; [auto|]. destruct (d =? 93) eqn:D; [|auto]. left. exists s'. assert (d = 93) as -> by lia. auto. }
      destruct X as [(s' & W & J)|J].
      - inversion J; subst. rewrite W in E. exists (91 :: b ++ [93]). split; [rewrite E; app_eq|]. now constructor.
      - apply IHa in J. destruct J as (t & us & W & -> & M). rewrite W in E. exists (91 :: (b ++ t) ++ [93]). split; [rewrite E; app_eq|].
        cbn [app]. apply value_array. now apply els_blank. }
    destruct (after [110; 117; 108; 108] (c :: s)) as [q|] eqn:A1; [inversion H; subst; apply after_split in A1; eexists; split; [exact A1|constructor]|].
    destruct (after [116; 114; 117; 101] (c :: s)) as [q|] eqn:A2; [inversion H; subst; apply after_split in A2; eexists; split; [exact A2|constructor]|].
    destruct (after [102; 97; 108; 115; 101] (c :: s)) as [q|] eqn:A3; [inversion H; subst; apply after_split in A3; eexists; split; [exact A3|constructor]|].
    destruct (match_number (c :: s)) as [[[[i f] e] q]|] eqn:M.
    { pose proof (number_sound _ _ _ _ _ M) as E. apply number_split in M. destruct M as (_ & I & Fr & Ex).
      assert (X : (f = [] /\ e = [] /\ jbind (of_res (parse_int i)) (fun z => JOk (JInt z, q)) = JOk (v, r)) \/
                  ((f <> [] \/ e <> []) /\ jbind (of_res (parse_float (i ++ f ++ e))) (fun x => JOk (JFloat x, q)) = JOk (v, r))).
      { destruct f as [|f0 f]; [destruct e as [|e0 e]|]; [left; auto| |]; right; (split; [|exact H]); [right|left]; discriminate. }
      destruct X as [(-> & -> & K)|(NE & K)].
      - destruct (parse_int i) as [z|x] eqn:P; [|discriminate]. cbn in K. inversion K; subst. cbn in E. rewrite app_nil_r in E. exists i. split; [exact E|]. now constructor.
      - destruct (parse_float (i ++ f ++ e)) as [z|x] eqn:P; [|discriminate]. cbn in K. inversion K; subst. exists (i ++ f ++ e). split; [exact E|].
        apply value_real; [|assumption]. exists i, f, e. auto 6. }
    destruct (after [78; 97; 78] (c :: s)) as [q|] eqn:A4; [inversion H; subst; apply after_split in A4; eexists; split; [exact A4|now constructor]|].
    destruct (after [73; 110; 102; 105; 110; 105; 116; 121] (c :: s)) as [q|] eqn:A5; [inversion H; subst; apply after_split in A5; eexists; split; [exact A5|now constructor]|].
    destruct (after [45; 73; 110; 102; 105; 110; 105; 116; 121] (c :: s)) as [q|] eqn:A6; [inversion H; subst; apply after_split in A6; eexists; split; [exact A6|now constructor]|].
    discriminate.
  - intros s ps v r H. rewrite obj_eq in H. destruct (parse_string int16 strict s) as [[k s1]| | | |] eqn:P; try discriminate. cbn [jbind] in H.
    apply parse_string_iff in P. destruct P as (kt & -> & K). destruct (w_split s1) as (b2 & B2 & E1).
    destruct (w s1) as [|c s2] eqn:W1; [discriminate|]. subst s1. destruct (negb (c =? 58)) eqn:C1; [discriminate|]. assert (c = 58) as -> by lia.
    destruct (w_split s2) as (b3 & B3 & E2). destruct (scan n strict (w s2)) as [[x s3]| | | |] eqn:Sc; try discriminate. cbn [expecting_value jbind] in H.
    apply IHs in Sc. destruct Sc as (t & Et & Vt). rewrite Et in E2. subst s2. destruct (w_split s3) as (b4 & B4 & E3).
    destruct (w s3) as [|c s4] eqn:W3; [discriminate|]. subst s3. destruct (c =? 125) eqn:C2.
    { inversion H; subst. assert (c = 125) as -> by lia. exists (kt ++ 34 :: b2 ++ 58 :: b3 ++ t ++ b4), [(k, x)].
      split; [repeat (rewrite <- ?app_assoc; cbn [app]); reflexivity|]. split; [reflexivity|].
      apply (members_one F nan inf neginf parse_float parse_int hex strict true [] kt k b2 b3 t x b4); auto using blank_nil. }
    destruct (negb (c =? 44)) eqn:C3; [discriminate|]. assert (c = 44) as -> by lia. destruct (w_split s4) as (b5 & B5 & E4).
    destruct (w s4) as [|c s5] eqn:W4; [discriminate|]. subst s4. destruct (negb (c =? 34)) eqn:C4; [discriminate|]. assert (c = 34) as -> by lia.
    apply IHo in H. destruct H as (t2 & qs & -> & -> & M). exists (kt ++ 34 :: b2 ++ 58 :: b3 ++ t ++ b4 ++ 44 :: b5 ++ 34 :: t2), ((k, x) :: qs).
    split; [repeat (rewrite <- ?app_assoc; cbn [app]); reflexivity|]. split; [now rewrite <- app_assoc|].
    apply (members_more F nan inf neginf parse_float parse_int hex strict true [] kt k b2 b3 t x b4 (b5 ++ 34 :: t2) qs); auto using blank_nil. now apply mems_blank.
  - intros s vs v r H. rewrite arr_eq in H. destruct (scan n strict s) as [[x s1]| | | |] eqn:Sc; try discriminate. cbn [expecting_value jbind] in H.
    apply IHs in Sc. destruct Sc as (t & -> & Vt). destruct (w_split s1) as (b2 & B2 & E1).
    destruct (w s1) as [|c s2] eqn:W1; [discriminate|]. subst s1. destruct (c =? 93) eqn:C1.
    { inversion H; subst. assert (c = 93) as -> by lia. exists (t ++ b2), [x]. split; [now rewrite <- app_assoc|]. split; [reflexivity|].
      apply (elements_one F nan inf neginf parse_float parse_int hex strict true [] t b2 x); auto using blank_nil. }
    destruct (negb (c =? 44)) eqn:C2; [discriminate|]. assert (c = 44) as -> by lia. destruct (w_split s2) as (b3 & B3 & E2).
    apply IHa in H. destruct H as (t2 & us & W & -> & M). rewrite W in E2. subst s2. exists (t ++ b2 ++ 44 :: b3 ++ t2), (x :: us).
    split; [repeat (rewrite <- ?app_assoc; cbn [app]); reflexivity|]. split; [now rewrite <- app_assoc|].
    apply (elements_more F nan inf neginf parse_float parse_int hex strict true [] t b2 x (b3 ++ t2) us); auto using blank_nil. now apply els_blank.
Qed.

Lemma real_head : forall t, real_number t -> exists c r, t = c :: r /\ (c = 45 \/ 48 <= c <= 57).
Proof. intros t (i & f & e & -> & I & _). destruct (int_head i I) as (c & r & -> & C). exists c, (r ++ f ++ e). auto. Qed.
Lemma value_head : forall t v, val_ t v -> exists c r, t = c :: r /\ is_ws c = false /\ c <> 93 /\ c <> 125.
Proof.
  intros t v H. destruct H as [| | |t z I P|t f R P| | | |t s C|b B|t vs E|b B|t ps M];
    try (eexists; eexists; split; [reflexivity|]; split; [reflexivity|]; split; intro X; discriminate X).
  - destruct (int_head t I) as (c & r & -> & C). exists c, r. split; [reflexivity|]. unfold is_ws. lia.
  - destruct (real_head t R) as (c & r & -> & C). exists c, r. split; [reflexivity|]. unfold is_ws. lia.
Qed.
Lemma w_value : forall t v s, val_ t v -> w (t ++ s) = t ++ s.
Proof. intros t v s H. destruct (value_head t v H) as (c & r & -> & C & _). cbn [app]. now apply w_stop. Qed.
Lemma follow_blank : forall b c s, blank b -> c = 44 \/ c = 93 \/ c = 125 -> follow (b ++ c :: s).
Proof. intros b c s B C. destruct B as [|d b D _]; cbn [app follow]; [tauto|]. left. now apply is_ws_iff. Qed.
Lemma follow_blank_end : forall b, blank b -> follow b.
Proof. intros b B. destruct B as [|d b D _]; cbn; [exact I|]. left. now apply is_ws_iff. Qed.

Lemma scan_number : forall n c s, c = 45 \/ 48 <= c <= 57 -> scan (S n) strict (c :: s) =
  match match_number (c :: s) with
  | Some (integer, [], [], s) => jbind (of_res (parse_int integer)) (fun z => JOk (JInt z, s))
  | Some (integer, frac, exp, s) => jbind (of_res (parse_float (integer ++ frac ++ exp))) (fun f => JOk (JFloat f, s))
  | None => match after [78; 97; 78] (c :: s) with
  | Some s => JOk (JFloat nan, s)
  | None => match after [73; 110; 102; 105; 110; 105; 116; 121] (c :: s) with
  | Some s => JOk (JFloat inf, s)
  | None => match after [45; 73; 110; 102; 105; 110; 105; 116; 121] (c :: s) with
  | Some s => JOk (JFloat neginf, s)
  | None => JStop
  end end end end.
Proof.
  intros n c s C. cbn [scan_once]. destruct (c =? 34) eqn:?; [lia|]. destruct (c =? 123) eqn:?; [lia|]. destruct (c =? 91) eqn:?; [lia|].
  rewrite !after_head with (a := 110) by lia. rewrite !after_head with (a := 116) by lia. rewrite !after_head with (a := 102) by lia. reflexivity.
Qed.

Lemma read_complete :
  (forall t v, val_ t v -> forall n r, follow r -> (2 * length t < n)%nat -> scan n strict (t ++ r) = JOk (v, r)) /\
  (forall t us, els t us -> forall n r vs, (2 * length t + 1 < n)%nat -> arr n strict (w (t ++ 93 :: r)) vs = JOk (JList (vs ++ us), r)) /\
  (forall t qs, mems t qs -> forall n r ps, (2 * length t + 1 < n)%nat ->
     exists t', w (t ++ 125 :: r) = 34 :: t' /\ obj n strict t' ps = JOk (JDict (dict_of (ps ++ qs)), r)).
Proof.
  apply (grammar_ind F nan inf neginf parse_float parse_int hex strict true
    (fun t v => forall n r, follow r -> (2 * length t < n)%nat -> scan n strict (t ++ r) = JOk (v, r))
    (fun t us => forall n r vs, (2 * length t + 1 < n)%nat -> arr n strict (w (t ++ 93 :: r)) vs = JOk (JList (vs ++ us), r))
    (fun t qs => forall n r ps, (2 * length t + 1 < n)%nat ->
     exists t', w (t ++ 125 :: r) = 34 :: t' /\ obj n strict t' ps = JOk (JDict (dict_of (ps ++ qs)), r))).
  - intros n r _ N. destruct n; [lia|]. reflexivity.
  - intros n r _ N. destruct n; [lia|]. reflexivity.
  - intros n r _ N. destruct n; [lia|]. reflexivity.
  - intros t z I P n r Fo N. destruct n; [lia|]. pose proof (number_app t [] [] r I (or_introl eq_refl) (or_introl eq_refl) Fo) as M. cbn [app] in M.
    destruct (int_head t I) as (c & q & -> & C). cbn [app] in *. rewrite scan_number by assumption. rewrite M, P. reflexivity.
  - intros t f R P n r Fo N. destruct n; [lia|]. destruct (real_head t R) as (c & q & E & C). destruct R as (i & fr & e & E' & I & Fr & Ex & NE).
    pose proof (number_app i fr e r I Fr Ex Fo) as M. replace (i ++ fr ++ e ++ r) with (t ++ r) in M by (rewrite E', <- !app_assoc; reflexivity).
    rewrite E in M |- *. cbn [app] in *. rewrite scan_number by assumption. rewrite M. rewrite <- E'. rewrite P.
    destruct fr as [|f0 fr]; [destruct e as [|e0 e]; [exfalso; destruct NE as [X|X]; now apply X|]|]; reflexivity.
  - intros _ n r _ N. destruct n; [lia|]. reflexivity.
  - intros _ n r _ N. destruct n; [lia|]. reflexivity.
  - intros _ n r _ N. destruct n; [lia|]. reflexivity.
  - intros t s C n r _ N. destruct n; [lia|]. cbn [app scan_once]. change (34 =? 34) with true. cbn match. rewrite <- app_assoc. cbn [app].
    assert (P : parse_string int16 strict (t ++ 34 :: r) = JOk (s, r)) by (apply parse_string_iff; eauto). rewrite P. reflexivity.
  - intros b B n r _ N. destruct n; [lia|]. cbn [app]. rewrite scan_arr.
    rewrite <- app_assoc. cbn [app]. rewrite w_blank by assumption. rewrite w_stop by reflexivity. reflexivity.
  - intros t vs E IH n r _ N. destruct n; [lia|]. cbn [app]. rewrite scan_arr.
    rewrite <- app_assoc. cbn [app]. cbn [length] in N. rewrite app_length in N. cbn [length] in N.
    assert (H : exists c q, w (t ++ 93 :: r) = c :: q /\ c <> 93).
    { destruct E as [b1 t b2 v B1 V B2|b1 t b2 v t' vs B1 V B2 E]; repeat (rewrite <- app_assoc; cbn [app]); rewrite w_blank by assumption; rewrite (w_value t v) by assumption;
      destruct (value_head t v V) as (c & q & -> & _ & C & _); cbn [app]; eauto. }
    specialize (IH n r [] ltac:(lia)). destruct H as (c & q & W & C). rewrite W in *. destruct (c =? 93) eqn:?; [lia|]. exact IH.
  - intros b B n r _ N. destruct n; [lia|]. cbn [app]. rewrite scan_obj.
    rewrite <- app_assoc. cbn [app]. rewrite w_blank by assumption. rewrite w_stop by reflexivity. reflexivity.
  - intros t ps M IH n r _ N. destruct n; [lia|]. cbn [app]. rewrite scan_obj.
    rewrite <- app_assoc. cbn [app]. cbn [length] in N. rewrite app_length in N. cbn [length] in N.
    destruct (IH n r [] ltac:(lia)) as (t' & W & O). rewrite W. cbn [Z.eqb Pos.eqb negb]. rewrite O. cbn [app]. now rewrite dict_of_as_dict.
  - intros b1 t b2 v B1 V IH B2 n r vs N. rewrite !app_length in N. destruct n; [lia|]. repeat (rewrite <- app_assoc; cbn [app]).
    rewrite w_blank by assumption. rewrite (w_value t v) by assumption. rewrite arr_eq. rewrite IH; [|apply follow_blank; auto|lia]. cbn [expecting_value jbind].
    rewrite w_blank by assumption. rewrite w_stop by reflexivity. reflexivity.
  - intros b1 t b2 v t' us B1 V IHv B2 E IHe n r vs N. rewrite !app_length in N. cbn [length] in N. destruct n; [lia|]. repeat (rewrite <- app_assoc; cbn [app]).
    rewrite w_blank by assumption. rewrite (w_value t v) by assumption. rewrite arr_eq. rewrite IHv; [|apply follow_blank; auto|lia]. cbn [expecting_value jbind].
    rewrite w_blank by assumption. rewrite w_stop by reflexivity. change (44 =? 93) with false. change (negb (44 =? 44)) with false. cbn match.
    rewrite IHe by lia. now rewrite <- app_assoc.
  - intros b1 k s b2 b3 t v b4 B1 K B2 B3 V IH B4 n r ps N. rewrite !app_length in N. cbn [length] in N. rewrite !app_length in N. cbn [length] in N.
    rewrite !app_length in N. cbn [length] in N. rewrite !app_length in N. destruct n; [lia|].
    repeat (rewrite <- app_assoc; cbn [app]). rewrite w_blank by assumption. rewrite w_stop by reflexivity. eexists. split; [reflexivity|].
    rewrite obj_eq. assert (P : forall q, parse_string int16 strict (k ++ 34 :: q) = JOk (s, q)) by (intro; apply parse_string_iff; eauto). rewrite P. cbn [jbind].
    rewrite w_blank by assumption. rewrite w_stop by reflexivity. change (negb (58 =? 58)) with false. cbn match.
    rewrite w_blank by assumption. rewrite (w_value t v) by assumption. rewrite IH; [|apply follow_blank; auto|lia]. cbn [expecting_value jbind].
    rewrite w_blank by assumption. rewrite w_stop by reflexivity. reflexivity.
  - intros b1 k s b2 b3 t v b4 t' qs B1 K B2 B3 V IHv B4 M IHm n r ps N. rewrite !app_length in N. cbn [length] in N. rewrite !app_length in N. cbn [length] in N.
    rewrite !app_length in N. cbn [length] in N. rewrite !app_length in N. cbn [length] in N. destruct n; [lia|].
    repeat (rewrite <- app_assoc; cbn [app]). rewrite w_blank by assumption. rewrite w_stop by reflexivity. eexists. split; [reflexivity|].
    rewrite obj_eq. assert (P : forall q, parse_string int16 strict (k ++ 34 :: q) = JOk (s, q)) by (intro; apply parse_string_iff; eauto). rewrite P. cbn [jbind].
    rewrite w_blank by assumption. rewrite w_stop by reflexivity. change (negb (58 =? 58)) with false. cbn match.
    rewrite w_blank by assumption. rewrite (w_value t v) by assumption. rewrite IHv; [|apply follow_blank; auto|lia]. cbn [expecting_value jbind].
    rewrite w_blank by assumption. rewrite w_stop by reflexivity. change (44 =? 125) with false. change (negb (44 =? 44)) with false. cbn match.
    destruct (IHm n r (ps ++ [(s, v)]) ltac:(lia)) as (u & W & O). rewrite W. change (negb (34 =? 34)) with false. cbn match. rewrite O. now rewrite <- app_assoc.
Qed.

Notation text := (json_text F nan inf neginf parse_float parse_int hex strict true).
Lemma loads_iff : forall s v, loads F nan inf neginf parse_float parse_int int16 strict s = JOk v <-> text s v.
Proof.
  assert (D : forall s v, decode F nan inf neginf parse_float parse_int int16 strict s = JOk v <-> text s v).
  { intros s v. unfold decode. split.
    - intro H. destruct (w_split s) as (b1 & B1 & E). destruct (scan (2 * length s + 2) strict (w s)) as [[x q]| | | |] eqn:Sc; try discriminate. cbn [expecting_value jbind] in H.
      apply (proj1 (read_sound _)) in Sc. destruct Sc as (t & Et & Vt). destruct (w_split q) as (b2 & B2 & E2). destruct (w q); [|discriminate]. inversion H; subst x.
      rewrite app_nil_r in E2. subst q. exists b1, t, b2. rewrite Et in E. auto.
    - intros (b1 & t & b2 & -> & B1 & V & B2). rewrite w_blank by assumption. rewrite (w_value t v) by assumption.
      rewrite (proj1 read_complete t v V); [|now apply follow_blank_end|rewrite !app_length; lia]. cbn [expecting_value jbind].
      rewrite <- (app_nil_r b2), w_blank by assumption. reflexivity. }
  intros s v. unfold loads. destruct s as [|c s]; [apply D|]. destruct (c =? 65279) eqn:C; [|apply D].
  split; [discriminate|]. intros (b1 & t & b2 & E & B1 & V & B2). exfalso. destruct B1 as [|d b1 Hd _]; cbn [app] in E; [|inversion E; lia].
  assert (c = 65279) as -> by lia. destruct V as [| | |t z I P|t f R P| | | |t' s' C'|b B|t' vs E'|b B|t' ps M]; try discriminate E.
  - destruct (int_head t I) as (d & r & -> & Hd). inversion E. lia.
  - destruct (real_head t R) as (d & r & -> & Hd). inversion E. lia.
Qed.
End Read.
