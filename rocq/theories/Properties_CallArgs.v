(** C137: the arguments made for a function reach its parameters.  Model: [CallArgs_Model]; spec: [CallArgs_Spec]. *)
From Coq Require Import ZArith List Bool Lia.
Import ListNotations.
From Verif Require Import Py CallArgs_Model CallArgs_Spec.

Section Values.
Variable V : Type.
Implicit Types sig pos var kwo dic : list param.

Lemma lookup_gen (value : param -> aval V) sig p : NoDup (map pname sig) -> In p sig -> lookup V (gen_args V value sig) (pname p) = Some (value p).
Proof.
  induction sig as [|q sig IH]; [intros _ []|]. intros N I. cbn [map] in N. inversion N as [|? ? N1 N2]; subst. cbn.
  destruct (Z.eqb_spec (pname q) (pname p)) as [E|E].
  - destruct I as [->|I]; [reflexivity|]. exfalso. apply N1. rewrite E. now apply in_map.
  - destruct I as [->|I]; [congruence|]. now apply IH.
Qed.
Definition one (a : aval V) : list V := match a with One v => [v] | _ => [] end.
Definition many (a : aval V) : list V := match a with Many l => l | _ => [] end.
Definition dict (a : aval V) : list (Z * V) := match a with Dict d => d | _ => [] end.
Definition pairs (value : param -> aval V) (ps : list param) : list (Z * V) :=
  flat_map (fun p => match value p with One v => [(pname p, v)] | _ => [] end) ps.

Lemma args_of_pos arguments (value : param -> aval V) pos rest :
  Forall (fun p => kind p = PosOnly \/ kind p = PosKw) pos ->
  (forall p, In p pos -> lookup V arguments (pname p) = Some (value p)) ->
  args_of V arguments (pos ++ rest) = flat_map (fun p => one (value p)) pos ++ args_of V arguments rest.
Proof.
  induction pos as [|p pos IH]; intros K L; [reflexivity|]. inversion K as [|? ? K1 K2]; subst. cbn [app args_of flat_map].
  rewrite (L p (or_introl eq_refl)), IH by (auto; intros q I; apply L; now right). rewrite app_assoc. f_equal.
  destruct K1 as [->| ->]; destruct (value p); reflexivity.
Qed.
Lemma args_of_stop arguments sig : Forall (fun p => kind p = KwOnly \/ kind p = VarKw) sig -> args_of V arguments sig = [].
Proof. intros K. destruct sig as [|p sig]; [reflexivity|]. inversion K as [|? ? K1 _]; subst. cbn. now destruct K1 as [->| ->]. Qed.

Lemma kwargs_skip arguments (value : param -> aval V) ps rest kw :
  Forall (fun p => kind p <> KwOnly /\ kind p <> VarKw) ps ->
  (forall p, In p ps -> lookup V arguments (pname p) = Some (value p)) ->
  kwargs_of V arguments (ps ++ rest) false kw = kwargs_of V arguments rest false kw.
Proof.
  induction ps as [|p ps IH]; intros K L; [reflexivity|]. inversion K as [|? ? [K1 K2] K3]; subst. cbn [app kwargs_of].
  rewrite (L p (or_introl eq_refl)). destruct (kind p); try congruence; cbn [negb andb]; (apply IH; [exact K3|]; intros q I; apply L; now right).
Qed.
Lemma kwargs_started arguments sig b kw : Forall (fun p => kind p = KwOnly \/ kind p = VarKw) sig ->
  kwargs_of V arguments sig b kw = kwargs_of V arguments sig true kw.
Proof. intros K. destruct sig as [|p sig]; [reflexivity|]. inversion K as [|? ? K1 _]; subst. cbn. destruct K1 as [->| ->]; now rewrite andb_false_r. Qed.
Lemma put_new d k (v : V) : ~ In k (map fst d) -> put V d k v = d ++ [(k, v)].
Proof.
  induction d as [|[k' v'] d IH]; intros N; [reflexivity|]. cbn in *. destruct (Z.eqb_spec k' k); [tauto|]. rewrite IH; [reflexivity|tauto].
Qed.
Lemma update_new e d : NoDup (map fst e) -> (forall k, In k (map fst e) -> ~ In k (map fst d)) -> update V d e = d ++ e.
Proof.
  revert d. induction e as [|[k v] e IH]; intros d N D; cbn; [symmetry; apply app_nil_r|]. cbn [map fst] in N. inversion N as [|? ? N1 N2]; subst.
  unfold update in IH. rewrite put_new by (apply D; now left). rewrite IH; [now rewrite <- app_assoc|exact N2|].
  intros k' I J. rewrite map_app, in_app_iff in J. destruct J as [J|[J|[]]]; [exact (D k' (or_intror I) J)|]. cbn in J. subst. contradiction.
Qed.
Lemma kwargs_kwo arguments (value : param -> aval V) kwo rest kw :
  Forall (fun p => kind p = KwOnly) kwo -> Forall (fun p => kind p = KwOnly \/ kind p = VarKw) rest ->
  (forall p, In p kwo -> lookup V arguments (pname p) = Some (value p) /\ proper V p (value p)) ->
  NoDup (map fst kw ++ map pname kwo) ->
  kwargs_of V arguments (kwo ++ rest) true kw = kwargs_of V arguments rest true (kw ++ pairs value kwo).
Proof.
  revert kw. induction kwo as [|p kwo IH]; intros kw K KR L N; cbn [app pairs flat_map]; [now rewrite app_nil_r|].
  inversion K as [|? ? K1 K2]; subst. cbn [kwargs_of]. destruct (L p (or_introl eq_refl)) as [L1 L2]. rewrite L1, K1. cbn [negb andb].
  unfold proper in L2. rewrite K1 in L2. destruct (value p) as [v|l|d]; try contradiction.
  cbn [map] in N. rewrite put_new by (apply NoDup_remove_2 in N; intros H; apply N; apply in_app_iff; now left).
  rewrite IH; [|assumption|assumption|intros q I; apply L; now right|].
  - unfold pairs. now rewrite <- app_assoc.
  - rewrite map_app, <- app_assoc. exact N.
Qed.
Lemma pairs_fst value (ps : list param) : Forall (fun p => exists v, value p = One v) ps -> map fst (pairs value ps) = map pname ps.
Proof. induction 1 as [|p ps [v E] _ IH]; [reflexivity|]. cbn. unfold pairs in IH. now rewrite E, map_app, IH. Qed.

(** * the call *)
Lemma filter_app_nil {A} (f : A -> bool) l : Forall (fun x => f x = false) l -> filter f l = [].
Proof. induction 1 as [|x l E _ IH]; [reflexivity|]. cbn. now rewrite E. Qed.
Lemma filter_all {A} (f : A -> bool) l : Forall (fun x => f x = true) l -> filter f l = l.
Proof. induction 1 as [|x l E _ IH]; [reflexivity|]. cbn. now rewrite E, IH. Qed.
Lemma mem_spec k l : mem k l = true <-> In k l.
Proof.
  unfold mem. rewrite existsb_exists. split; [intros (x & I & E); apply Z.eqb_eq in E; now subst|].
  intros I. exists k. split; [exact I|apply Z.eqb_refl].
Qed.
Lemma mem_false k l : mem k l = false <-> ~ In k l.
Proof. rewrite <- mem_spec. destruct (mem k l); split; congruence. Qed.
Lemma assoc_in (d : list (Z * V)) k v : NoDup (map fst d) -> In (k, v) d -> assoc V d k = Some v.
Proof.
  induction d as [|[k' v'] d IH]; [intros _ []|]. cbn. intros N I. inversion N as [|? ? N1 N2]; subst.
  destruct (Z.eqb_spec k' k) as [->|E].
  - destruct I as [I|I]; [congruence|]. exfalso. apply N1. change k with (fst (k, v)). now apply in_map.
  - destruct I as [I|I]; [congruence|]. now apply IH.
Qed.
Lemma assoc_out (d : list (Z * V)) k : ~ In k (map fst d) -> assoc V d k = None.
Proof. induction d as [|[k' v'] d IH]; [reflexivity|]. cbn. intros N. destruct (Z.eqb_spec k' k); [tauto|]. apply IH. tauto. Qed.
Lemma all_ok_all {A B} (f : A -> res B) (g : A -> B) l : (forall x, In x l -> f x = Ok (g x)) -> all_ok f l = Ok (map g l).
Proof. induction l as [|x l IH]; intros H; [reflexivity|]. cbn. rewrite (H x (or_introl eq_refl)), IH; [reflexivity|]. intros y I. apply H. now right. Qed.
Lemma combine_pairs value (ps : list param) more : Forall (fun p => exists v, value p = One v) ps ->
  combine (map pname ps) (flat_map (fun p => one (value p)) ps ++ more) = pairs value ps /\
  skipn (length (map pname ps)) (flat_map (fun p => one (value p)) ps ++ more) = more.
Proof.
  induction 1 as [|p ps [v E] _ [IH1 IH2]]; [split; reflexivity|]. cbn [map flat_map length]. rewrite E. cbn [one app combine skipn length pairs flat_map].
  rewrite IH1, E. split; [reflexivity|exact IH2].
Qed.
Lemma in_pairs value (ps : list param) p v : In p ps -> value p = One v -> In (pname p, v) (pairs value ps).
Proof. intros I E. unfold pairs. apply in_flat_map. exists p. split; [exact I|]. rewrite E. now left. Qed.
Lemma NoDup_app_l {A} (a b : list A) : NoDup (a ++ b) -> NoDup a.
Proof. induction a as [|x a IH]; cbn; intros H; [constructor|]. inversion H as [|? ? H1 H2]; subst. constructor; [intros I; apply H1; apply in_app_iff; now left|now apply IH]. Qed.
Lemma NoDup_app_r {A} (a b : list A) : NoDup (a ++ b) -> NoDup b.
Proof. induction a as [|x a IH]; cbn; intros H; [exact H|]. inversion H; subst. now apply IH. Qed.
Lemma NoDup_app_apart {A} (a b : list A) x : NoDup (a ++ b) -> In x a -> ~ In x b.
Proof.
  induction a as [|y a IH]; [intros _ []|]. cbn. intros H [->|I] J; inversion H as [|? ? H1 H2]; subst; [apply H1; apply in_app_iff; now right|].
  exact (IH H2 I J).
Qed.
Lemma NoDup_both {A} (a b : list A) : NoDup a -> NoDup b -> (forall x, In x a -> ~ In x b) -> NoDup (a ++ b).
Proof.
  induction 1 as [|x a N1 N2 IH]; intros NB D; [exact NB|]. cbn. constructor.
  - rewrite in_app_iff. intros [H|H]; [contradiction|]. exact (D x (or_introl eq_refl) H).
  - apply IH; [exact NB|]. intros y I. apply D. now right.
Qed.
End Values.

(** C137, partial.  For every signature and all values made for its parameters, the call succeeds and each
    parameter gets the value made for it.  Missing: dictionaries for "**kwargs" with the name of another parameter
    as a key; refuted below. *)
Theorem C137_arguments_reach_partial (V : Type) (value : param -> aval V) (pos var kwo dic : list param) :
  let sig := pos ++ var ++ kwo ++ dic in
  signature pos var kwo dic -> (forall p, In p sig -> proper V p (value p)) ->
  (forall p d k, In p dic -> value p = Dict d -> In k (map fst d) -> ~ In k (keywords sig)) ->
  let arguments := gen_args V value sig in
  call V sig (args_of V arguments sig) (kwargs_of V arguments sig false []) = Ok (map (fun p => (pname p, Given (value p))) sig).
Proof.
  intros sig (HP & HV & HK & HD & N) PR NC arguments.
  assert (L : forall p, In p sig -> lookup V arguments (pname p) = Some (value p)) by (intros p I; now apply lookup_gen).
  assert (IP : forall p, In p pos -> In p sig) by (intros p I; unfold sig; rewrite !in_app_iff; auto).
  assert (IV : forall p, In p var -> In p sig) by (intros p I; unfold sig; rewrite !in_app_iff; auto).
  assert (IK : forall p, In p kwo -> In p sig) by (intros p I; unfold sig; rewrite !in_app_iff; auto).
  assert (ID : forall p, In p dic -> In p sig) by (intros p I; unfold sig; rewrite !in_app_iff; auto).
  assert (KV : Forall (fun p => kind p = VarPos) var) by (destruct HV as [->|(p & -> & E)]; [constructor|constructor; [exact E|constructor]]).
  assert (KD : Forall (fun p => kind p = VarKw) dic) by (destruct HD as [->|(p & -> & E)]; [constructor|constructor; [exact E|constructor]]).
  rewrite Forall_forall in HP, KV, HK, KD.
  assert (OP : forall p, In p pos -> exists v, value p = One v).
  { intros p I. specialize (PR p (IP p I)). unfold proper in PR. destruct (HP p I) as [E|E]; rewrite E in PR; destruct (value p); try contradiction; eauto. }
  assert (OK : forall p, In p kwo -> exists v, value p = One v).
  { intros p I. specialize (PR p (IK p I)). unfold proper in PR. rewrite (HK p I) in PR. destruct (value p); try contradiction; eauto. }
  set (more := flat_map (fun p => many V (value p)) var). set (extras := flat_map (fun p => dict V (value p)) dic).
  assert (ND : NoDup (map fst extras) /\ forall k, In k (map fst extras) -> ~ In k (keywords sig)).
  { unfold extras. destruct HD as [->|(p & -> & E)]; [split; [constructor|intros k []]|]. cbn. rewrite app_nil_r.
    specialize (PR p (ID p (or_introl eq_refl))). unfold proper in PR. rewrite E in PR. destruct (value p) as [v|l|d] eqn:EV; try contradiction.
    split; [exact PR|]. intros k I. exact (NC p d k (or_introl eq_refl) EV I). }
  destruct ND as [ND NE].
  assert (FP : filter is_positional sig = pos).
  { unfold sig. rewrite !filter_app, (filter_all _ pos), (filter_app_nil _ var), (filter_app_nil _ kwo), (filter_app_nil _ dic), !app_nil_r; try reflexivity;
      rewrite Forall_forall; intros p I; unfold is_positional.
    - now rewrite (KD p I). - now rewrite (HK p I). - now rewrite (KV p I). - now destruct (HP p I) as [->| ->]. }
  assert (FK : forall p, In p sig -> (by_keyword p = true <-> In (pname p) (keywords sig))).
  { intros p I. unfold keywords. split.
    - intros B. apply in_map. apply filter_In. now split.
    - intros H. apply in_map_iff in H as (q & E & Q). apply filter_In in Q as [Q1 Q2].
      replace p with q; [exact Q2|]. clear - N E Q1 I. fold sig in N. induction sig as [|r l IH]; [destruct I|]. cbn in N. inversion N as [|? ? N1 N2]; subst.
      destruct Q1 as [->|Q1], I as [->|I]; try reflexivity.
      + exfalso. apply N1. rewrite E. now apply in_map.
      + exfalso. apply N1. rewrite <- E. now apply in_map.
      + now apply IH. }
  assert (A : args_of V arguments sig = flat_map (fun p => one V (value p)) pos ++ more).
  { unfold sig. rewrite (args_of_pos V arguments value pos); [|now rewrite Forall_forall|auto]. f_equal.
    assert (S : args_of V arguments (kwo ++ dic) = []).
    { apply args_of_stop. rewrite Forall_forall. intros p I. apply in_app_iff in I as [I|I]; [left; now apply HK|right; now apply KD]. }
    unfold more. destruct HV as [->|(p & -> & E)]; [exact S|]. cbn [app args_of flat_map]. rewrite E, (L p (IV p (or_introl eq_refl))), S, !app_nil_r.
    specialize (PR p (IV p (or_introl eq_refl))). unfold proper in PR. rewrite E in PR. destruct (value p); try contradiction. reflexivity. }
  assert (NK : NoDup (map pname kwo)).
  { rewrite !map_app in N. now apply NoDup_app_r, NoDup_app_r, NoDup_app_l in N. }
  assert (KN : forall p, In p kwo -> In (pname p) (keywords sig)).
  { intros p I. apply FK; [now apply IK|]. unfold by_keyword. now rewrite (HK p I). }
  assert (PF : map fst (pairs V value kwo) = map pname kwo) by (apply pairs_fst; rewrite Forall_forall; exact OK).
  assert (K : kwargs_of V arguments sig false [] = pairs V value kwo ++ extras).
  { unfold sig. rewrite app_assoc. rewrite (kwargs_skip V arguments value (pos ++ var)).
    2: { rewrite Forall_forall. intros p I. apply in_app_iff in I as [I|I]; [destruct (HP p I) as [->| ->]|rewrite (KV p I)]; now split. }
    2: { intros p I. apply L. unfold sig. rewrite !in_app_iff. apply in_app_iff in I. tauto. }
    assert (KDD : Forall (fun p => kind p = KwOnly \/ kind p = VarKw) dic) by (rewrite Forall_forall; intros p I; right; now apply KD).
    rewrite kwargs_started by (rewrite Forall_forall; intros p I; apply in_app_iff in I as [I|I]; [left; now apply HK|right; now apply KD]).
    rewrite (kwargs_kwo V arguments value kwo dic []); [|now rewrite Forall_forall|exact KDD|intros p I; split; [apply L; now apply IK|apply PR; now apply IK]|exact NK].
    cbn [app]. unfold extras in *. destruct HD as [->|(p & -> & E)]; [cbn; now rewrite app_nil_r|]. cbn [kwargs_of flat_map] in *.
    rewrite (L p (ID p (or_introl eq_refl))), E. cbn [negb andb].
    specialize (PR p (ID p (or_introl eq_refl))). unfold proper in PR. rewrite E in PR. destruct (value p) as [v|l|d]; try contradiction. cbn [dict] in *.
    rewrite app_nil_r in *. apply update_new; [exact ND|]. intros k I J. rewrite PF in J. apply in_map_iff in J as (q & <- & Q). exact (NE _ I (KN q Q)). }
  rewrite A, K. unfold call.
  assert (OPF : Forall (fun p => exists v, value p = One v) pos) by (rewrite Forall_forall; exact OP).
  destruct (combine_pairs V value pos more OPF) as [C1 C2]. unfold positionals. rewrite FP, C1, C2.
  assert (PP : map fst (pairs V value pos) = map pname pos) by (apply pairs_fst; exact OPF).
  assert (EX : filter (fun p => negb (mem (fst p) (keywords sig))) (pairs V value kwo ++ extras) = extras).
  { rewrite filter_app, filter_app_nil, filter_all; [reflexivity| |]; rewrite Forall_forall; intros [k v] I; cbn.
    - replace (mem k (keywords sig)) with false; [reflexivity|]. symmetry. apply mem_false. apply NE. change k with (fst (k, v)). now apply in_map.
    - replace (mem k (keywords sig)) with true; [reflexivity|]. symmetry. apply mem_spec.
      assert (J : In k (map fst (pairs V value kwo))) by (change k with (fst (k, v)); now apply in_map). rewrite PF in J.
      apply in_map_iff in J as (q & <- & Q). now apply KN. }
  rewrite EX.
  replace (negb (takes_more VarPos sig) && negb (match more with [] => true | _ => false end)) with false.
  2: { symmetry. destruct HV as [->|(p & E1 & E2)]; [now rewrite andb_false_r|].
       replace (takes_more VarPos sig) with true; [reflexivity|]. symmetry. apply existsb_exists. exists p. split; [|now rewrite E2]. apply IV. rewrite E1. now left. }
  replace (negb (takes_more VarKw sig) && negb (match extras with [] => true | _ => false end)) with false.
  2: { symmetry. destruct HD as [->|(p & E1 & E2)]; [now rewrite andb_false_r|].
       replace (takes_more VarKw sig) with true; [reflexivity|]. symmetry. apply existsb_exists. exists p. split; [|now rewrite E2]. apply ID. rewrite E1. now left. }
  match goal with |- (if ?b then _ else _) = _ => replace b with false end.
  2: { symmetry. apply not_true_iff_false. intros H. apply existsb_exists in H as ([k v] & I & H). cbn [fst] in H.
       apply andb_prop in H as [H1 H2]. apply mem_spec in H1, H2. rewrite PP in H2. apply in_app_iff in I as [I|I].
       - assert (J : In k (map fst (pairs V value kwo))) by (change k with (fst (k, v)); now apply in_map). rewrite PF in J.
         rewrite !map_app in N. apply (NoDup_app_apart _ _ k N H2). rewrite !in_app_iff. auto.
       - apply (NE k); [|exact H1]. change k with (fst (k, v)). now apply in_map. }
  apply all_ok_all. intros p I. pose proof I as I0. unfold sig in I. rewrite !in_app_iff in I. destruct I as [I|[I|[I|I]]].
  - destruct (OP p I) as [v E]. assert (F : assoc V (pairs V value pos) (pname p) = Some v).
    { apply assoc_in; [rewrite PP; rewrite !map_app in N; now apply NoDup_app_l in N|now apply in_pairs]. }
    unfold is_positional, by_keyword. destruct (HP p I) as [T|T]; rewrite T; rewrite F, E; reflexivity.
  - rewrite (KV p I). do 3 f_equal. specialize (PR p (IV p I)). unfold proper in PR. rewrite (KV p I) in PR.
    unfold more. destruct HV as [->|(q & -> & _)]; [destruct I|]. destruct I as [->|[]]. cbn. rewrite app_nil_r. destruct (value p); try contradiction. reflexivity.
  - destruct (OK p I) as [v E]. unfold is_positional, by_keyword. rewrite (HK p I).
    rewrite (assoc_in V _ (pname p) v); [now rewrite E| |apply in_app_iff; left; now apply in_pairs].
    rewrite map_app, PF. apply NoDup_both; [exact NK|exact ND|]. intros k K1 K2. apply in_map_iff in K1 as (q & <- & Q). exact (NE _ K2 (KN q Q)).
  - rewrite (KD p I). do 3 f_equal. specialize (PR p (ID p I)). unfold proper in PR. rewrite (KD p I) in PR.
    unfold extras. destruct HD as [->|(q & -> & _)]; [destruct I|]. destruct I as [->|[]]. cbn. rewrite app_nil_r. destruct (value p); try contradiction. reflexivity.
Qed.
Print Assumptions C137_arguments_reach_partial.
(** def f(a, /, b, *c, d, **e) *)
Definition sig5 : list param := [Param 1 PosOnly false; Param 2 PosKw true; Param 3 VarPos false; Param 4 KwOnly false; Param 5 VarKw false].
Definition values5 (keys : list (Z * Z)) (p : param) : aval Z :=
  match kind p with VarPos => Many [7%Z; 8%Z] | VarKw => Dict keys | _ => One (pname p * 10)%Z end.
Example C137_arguments_reach_partial_witness :
  let value := values5 [(1, 100); (6, 600)]%Z in
  signature (firstn 2 sig5) [Param 3 VarPos false] [Param 4 KwOnly false] [Param 5 VarKw false] /\
  (forall p, In p sig5 -> proper Z p (value p)) /\
  call Z sig5 (args_of Z (gen_args Z value sig5) sig5) (kwargs_of Z (gen_args Z value sig5) sig5 false []) =
  Ok [(1, Given (One 10)); (2, Given (One 20)); (3, Given (Many [7; 8])); (4, Given (One 40)); (5, Given (Dict [(1, 100); (6, 600)]))]%Z.
Proof.
  split; [|split; [|reflexivity]].
  - split; [|split; [|split; [|split]]].
    + constructor; [now left|]. constructor; [now right|constructor].
    + right. eexists. split; reflexivity.
    + repeat constructor.
    + right. eexists. split; reflexivity.
    + cbn [map pname app firstn sig5]. repeat (apply NoDup_cons; [cbn; intuition discriminate|]). apply NoDup_nil.
  - intros p I. destruct I as [<-|[<-|[<-|[<-|[<-|[]]]]]]; try exact Logic.I.
    cbn [proper kind value values5 map fst]. repeat (apply NoDup_cons; [cbn; intuition discriminate|]). apply NoDup_nil.
Qed.

(** C137, violated.  If the dictionary made for "**kwargs" has the name of another parameter as a key, the function
    cannot be called, although nothing is wrong with it; or a keyword-only parameter gets the other value, so that
    the arguments shown in messages and in conditions are not the ones that were used. *)
Theorem C137_key_names_parameter_refuted : exists (value1 value2 : param -> aval Z) (sig1 sig2 : list param),
  let a1 := gen_args Z value1 sig1 in let a2 := gen_args Z value2 sig2 in
  call Z sig1 (args_of Z a1 sig1) (kwargs_of Z a1 sig1 false []) = Err TypeError /\
  lookup Z a2 4 = Some (One 40%Z) /\
  call Z sig2 (args_of Z a2 sig2) (kwargs_of Z a2 sig2 false []) = Ok [(4, Given (One 0)); (5, Given (Dict []))]%Z.
Proof.
  exists (values5 [(2, 0)]%Z), (values5 [(4, 0)]%Z), sig5, (skipn 3 sig5). repeat split; reflexivity.
Qed.
Print Assumptions C137_key_names_parameter_refuted.
(** C137, violated.  Conditions see a list where the function sees a tuple: "pre: args == (1, 2)" is false of a call
    f(1, 2). *)
Theorem C137_conditions_see_lists_refuted : exists (a b : aval Z),
  py_eq (condition_sees a) (function_sees b) = false /\ py_eq (function_sees a) (function_sees b) = true.
Proof. exists (Many [1; 2]%Z), (Many [1; 2]%Z). split; reflexivity. Qed.
Print Assumptions C137_conditions_see_lists_refuted.
