(** Proofs about the collection of contracts for classes. *)
From Coq Require Import String List Bool Arith Lia.
From Verif Require Import Inherit_Model Inherit_Spec.
Import ListNotations.
Open Scope string_scope.
Open Scope list_scope.

Section P.
Variable cond : Type.
Notation cls := (cls cond).
Notation conds := (conds cond).

Fixpoint cls_ind' (P : cls -> Prop)
    (H : forall python bases members invs, Forall P bases -> P (Cls python bases members invs)) (c : cls) : P c :=
  match c with
  | Cls python bases members invs =>
      H python bases members invs
        ((fix all l : Forall P l := match l with [] => Forall_nil P | b :: l => Forall_cons b (cls_ind' P H b) (all l) end) bases)
  end.

Lemma lookup_app {A} n (d e : dict A) :
  lookup n (d ++ e) = match lookup n d with Some x => Some x | None => lookup n e end.
Proof. induction d as [|[k a] d IH]; cbn; auto. destruct (String.eqb n k); auto. Qed.
Lemma lookup_none {A} n (d : dict A) : ~ In n (map fst d) -> lookup n d = None.
Proof.
  induction d as [|[k a] d IH]; cbn; auto. intro H. destruct (String.eqb_spec n k); [subst; tauto|]. auto.
Qed.
Lemma lookup_in {A} n (d : dict A) x : lookup n d = Some x -> In (n, x) d.
Proof.
  induction d as [|[k a] d IH]; cbn; [discriminate|]. destruct (String.eqb_spec n k); [|auto].
  intro E. injection E as ->. subst. auto.
Qed.

(** the first of several dictionaries that has the key *)
Fixpoint first_of {A} n (l : list (dict A)) : option A :=
  match l with [] => None | d :: l => match lookup n d with Some x => Some x | None => first_of n l end end.
Lemma merge_lookup n l : lookup n (merge_methods cond l) = first_of n (map snd l).
Proof.
  unfold merge_methods.
  assert (H : forall l acc, lookup n (fold_left (fun m (c : list cond * dict conds) => update m (snd c)) (rev l) acc) =
               match first_of n (map snd l) with Some x => Some x | None => lookup n acc end).
  { clear. induction l as [|c l IH]; intro acc; [reflexivity|].
    cbn [rev map first_of]. rewrite fold_left_app. cbn [fold_left]. unfold update at 1. rewrite lookup_app, IH.
    destruct (lookup n (snd c)); auto. }
  rewrite H. destruct (first_of n (map snd l)); reflexivity.
Qed.

Lemma lookup_flat n f (names : list string) : NoDup names ->
  lookup n (flat_map (fun n => match f n with Some c => [(n, c)] | None => [] end) names) =
  (if in_dec string_dec n names then f n else None : option conds).
Proof.
  induction 1 as [|m names NI ND IH]; [reflexivity|]. cbn [flat_map]. rewrite lookup_app, IH.
  destruct (in_dec string_dec n (m :: names)) as [I|I]; destruct (in_dec string_dec n names) as [J|J].
  - assert (n <> m) by congruence. destruct (f m); cbn; auto. destruct (String.eqb_spec n m); [congruence|]. auto.
  - destruct I as [->|I]; [|contradiction]. destruct (f n); cbn; auto. now rewrite String.eqb_refl.
  - exfalso. apply I. now right.
  - assert (n <> m) by (intros ->; apply I; now left). destruct (f m); cbn; auto. destruct (String.eqb_spec n m); [congruence|]. auto.
Qed.

Lemma existsb_lookup {A} n (d : dict A) : existsb (fun e => String.eqb n (fst e)) d = match lookup n d with Some _ => true | None => false end.
Proof. induction d as [|[k a] d IH]; cbn; auto. destruct (String.eqb n k); auto. Qed.

Definition init_conds (inv : list cond) : conds := mkConds None [] inv [] None [].
Lemma concrete_lookup supers members inv n :
  lookup n (snd (concrete cond true supers members inv)) =
  match method cond members (merge_methods cond supers) inv n with
  | Some c => Some c
  | None => if String.eqb n "__init__" && nonempty inv then Some (init_conds inv) else None
  end.
Proof.
  unfold concrete. cbn [negb snd].
  set (ms := merge_methods cond supers). set (names := nodup string_dec (map fst members ++ map fst ms)).
  set (d := flat_map _ names).
  assert (L : forall n, lookup n d = method cond members ms inv n).
  { intro m. unfold d. rewrite lookup_flat by apply NoDup_nodup.
    destruct (in_dec string_dec m names) as [I|I]; [reflexivity|].
    unfold names in I. rewrite nodup_In, in_app_iff in I. unfold method.
    rewrite (lookup_none m members) by tauto. rewrite (lookup_none m ms) by tauto. reflexivity. }
  rewrite existsb_lookup, L.
  destruct (method cond members ms inv "__init__") eqn:M.
  - rewrite andb_false_r, L. destruct (method cond members ms inv n) eqn:N; auto.
    destruct (String.eqb_spec n "__init__"); [subst; congruence|]. reflexivity.
  - cbn [negb]. rewrite andb_true_r. destruct (nonempty inv) eqn:E.
    + unfold update. cbn [app lookup]. destruct (String.eqb_spec n "__init__") as [->|].
      * rewrite M. reflexivity.
      * rewrite L. cbn [andb]. destruct (method cond members ms inv n); reflexivity.
    + rewrite andb_false_r, L. destruct (method cond members ms inv n); reflexivity.
Qed.

Variable any_class : list bool.
Notation class_conditions := (class_conditions cond any_class).
Notation effective c n := (lookup n (snd (class_conditions c))).
Notation invs_of c := (fst (class_conditions c)).

Lemma first_class_cases supers python members parsers invs :
  first_class cond supers python members parsers invs = ([], []) \/
  exists inv p, first_class cond supers python members parsers invs = concrete cond true supers members inv /\
    In p parsers /\ python || p = true /\ (inv = [] \/ In inv invs) /\
    class_has_any cond (concrete cond true supers members inv) = true.
Proof.
  revert invs. induction parsers as [|p parsers IH]; intro invs; [now left|]. cbn [first_class].
  destruct (class_has_any cond (concrete cond (python || p) supers members (hd [] invs))) eqn:E.
  - right. exists (hd [] invs), p.
    destruct (python || p) eqn:C.
    + split; [reflexivity|]. split; [now left|]. split; [auto|]. split; [|exact E]. destruct invs; cbn; auto.
    + cbn in E. discriminate.
  - destruct (IH (tl invs)) as [H|(inv & q & H & I & C & J & K)]; [now left|]. right. exists inv, q.
    split; [exact H|]. split; [now right|]. split; [exact C|]. split; [|exact K]. destruct J as [->|J]; [now left|].
    right. destruct invs; [destruct J|now right].
Qed.
Lemma get_fn_written l : get_fn cond l = written cond l.
Proof.
  assert (H : forall l ret, first_conds cond ret l =
    match find (fun o => match o with Some p => says cond p | None => false end) l with
    | Some o => o
    | None => hd ret (filter (fun o => match o with Some _ => true | None => false end) (rev l))
    end).
  { induction l0 as [|[c|] l0 IH]; intros ret; [reflexivity| |].
    - cbn [first_conds find]. replace (has_any cond c) with (says cond c).
      2:{ unfold says, has_any. destruct (pre _ c), (post _ c), (messages _ c); reflexivity. }
      destruct (says cond c); [reflexivity|]. rewrite IH. destruct (find _ l0); [reflexivity|].
      cbn [rev]. rewrite filter_app. cbn [filter]. destruct (filter _ (rev l0)); reflexivity.
    - cbn [first_conds find]. rewrite IH. destruct (find _ l0); [reflexivity|].
      cbn [rev]. rewrite filter_app. cbn [filter]. now rewrite app_nil_r. }
  unfold get_fn, written. apply H.
Qed.
Definition base (members : dict (list (option conds))) (supers : dict conds) (n : string) : option conds :=
  match lookup n members with
  | None => lookup n supers
  | Some l => match written cond l with
              | None => None
              | Some parsed => match lookup n supers with None => Some parsed | Some super => Some (merge_fn cond parsed super) end
              end
  end.
Definition add_inv (n : string) (inv : list cond) (c : conds) : conds :=
  mkConds (fn _ c) (if in_pre n then pre _ c ++ inv else pre _ c)
          (if in_post n then post _ c ++ inv else post _ c) (raises _ c) (mutable _ c) (messages _ c).
Lemma method_base members supers inv n :
  method cond members supers inv n =
  match base members supers n with
  | None => None
  | Some c => if has_any cond (add_inv n inv c) then Some (add_inv n inv c) else None
  end.
Proof. unfold method, base. destruct (lookup n members) as [l|]; [|reflexivity]. now rewrite get_fn_written. Qed.

(** If a method has a contract whatever the invariants, the first parser decides. *)
Lemma has_any_method supers members inv n c :
  method cond members (merge_methods cond supers) inv n = Some c ->
  class_has_any cond (concrete cond true supers members inv) = true.
Proof.
  intro M. unfold class_has_any. apply orb_true_iff. right. apply existsb_exists.
  assert (L : lookup n (snd (concrete cond true supers members inv)) = Some c) by now rewrite concrete_lookup, M.
  exists (n, c). split; [now apply lookup_in|]. cbn [snd].
  rewrite method_base in M. destruct (base members (merge_methods cond supers) n) as [b|]; [|discriminate].
  destruct (has_any cond (add_inv n inv b)) eqn:Q; [|discriminate]. injection M as <-. exact Q.
Qed.

Lemma nonempty_app_l {A} (a b : list A) : nonempty a = true -> nonempty (a ++ b) = true.
Proof. destruct a; [discriminate|reflexivity]. Qed.
Lemma with_inv_any c n inv : has_any cond c = true ->
  has_any cond (mkConds (fn _ c) (if in_pre n then pre _ c ++ inv else pre _ c)
                        (if in_post n then post _ c ++ inv else post _ c) (raises _ c) (mutable _ c) (messages _ c)) = true.
Proof.
  unfold has_any. cbn. rewrite !orb_true_iff. intros [[H|H]|H].
  - left. left. destruct (in_pre n); auto. now apply nonempty_app_l.
  - left. right. destruct (in_post n); auto. now apply nonempty_app_l.
  - now right.
Qed.
Lemma first_class_first supers members parsers invs : parsers <> [] ->
  (forall inv, class_has_any cond (concrete cond true supers members inv) = true) ->
  first_class cond supers true members parsers invs = concrete cond true supers members (hd [] invs).
Proof. intros NE H. destruct parsers as [|p ps]; [congruence|]. cbn [first_class orb]. now rewrite H. Qed.
(** what a class written in Python has for a method whose conditions do not depend on
    invariants alone *)
Lemma effective_base bases members invs n c : any_class <> [] ->
  base members (merge_methods cond (map class_conditions bases)) n = Some c -> has_any cond c = true ->
  effective (Cls true bases members invs) n = Some (add_inv n (invs_of (Cls true bases members invs)) c).
Proof.
  intros NE B H. cbn [Inherit_Model.class_conditions].
  assert (M : forall inv, method cond members (merge_methods cond (map class_conditions bases)) inv n = Some (add_inv n inv c)).
  { intro inv. rewrite method_base, B. unfold add_inv at 1. rewrite with_inv_any by auto. reflexivity. }
  rewrite first_class_first; [|exact NE|intro inv; exact (has_any_method _ _ _ _ _ (M inv))].
  rewrite concrete_lookup, M. reflexivity.
Qed.

(** *** Nothing is invented *)
Lemma base_of_source bases members invs python n k :
  Forall (fun b => forall n k, effective b n = Some k ->
     (forall x, In x (pre _ k) -> exists a, within cond b a /\ (states_pre cond a n x \/ invariant cond a x)) /\
     (forall x, In x (post _ k) -> exists a, within cond b a /\ (states_post cond a n x \/ invariant cond a x)) /\
     (forall x, In x (raises _ k) -> exists a, within cond b a /\ states_raises cond a n x)) bases ->
  base members (merge_methods cond (map class_conditions bases)) n = Some k ->
  let c := Cls python bases members invs in
     (forall x, In x (pre _ k) -> exists a, within cond c a /\ (states_pre cond a n x \/ invariant cond a x)) /\
     (forall x, In x (post _ k) -> exists a, within cond c a /\ (states_post cond a n x \/ invariant cond a x)) /\
     (forall x, In x (raises _ k) -> exists a, within cond c a /\ states_raises cond a n x).
Proof.
  intros F B c.
  assert (SU : forall s, lookup n (merge_methods cond (map class_conditions bases)) = Some s ->
     (forall x, In x (pre _ s) -> exists a, within cond c a /\ (states_pre cond a n x \/ invariant cond a x)) /\
     (forall x, In x (post _ s) -> exists a, within cond c a /\ (states_post cond a n x \/ invariant cond a x)) /\
     (forall x, In x (raises _ s) -> exists a, within cond c a /\ states_raises cond a n x)).
  { intros s. rewrite merge_lookup. unfold c. clear c B.
    assert (G : forall l, incl l bases -> first_of n (map snd (map class_conditions l)) = Some s ->
              exists b, In b bases /\ effective b n = Some s).
    { induction l as [|b l IH]; cbn; [discriminate|]. intros I. destruct (effective b n) as [q|] eqn:E.
      - intro X. injection X as ->. exists b. split; [apply I; now left|auto].
      - apply IH. intros y Y. apply I. now right. }
    intro E. destruct (G bases (fun x y => y) E) as (b & I & E').
    rewrite Forall_forall in F. destruct (F b I n s E') as (H1 & H2 & H3).
    split; [|split]; intros x X.
    - destruct (H1 x X) as (a & W & H). exists a. split; auto. econstructor; eauto.
    - destruct (H2 x X) as (a & W & H). exists a. split; auto. econstructor; eauto.
    - destruct (H3 x X) as (a & W & H). exists a. split; auto. econstructor; eauto. }
  unfold base in B. destruct (lookup n members) as [l|] eqn:L.
  - destruct (written cond l) as [p|] eqn:G; [|discriminate].
    assert (C : contract cond c n = Some p) by (unfold contract, c; now rewrite L).
    assert (OWN : (forall x, In x (pre _ p) -> exists a, within cond c a /\ (states_pre cond a n x \/ invariant cond a x)) /\
       (forall x, In x (post _ p) -> exists a, within cond c a /\ (states_post cond a n x \/ invariant cond a x)) /\
       (forall x, In x (raises _ p) -> exists a, within cond c a /\ states_raises cond a n x)).
    { split; [|split]; intros x X; exists c; (split; [constructor|]); [left|left|]; exists p; auto. }
    destruct (lookup n (merge_methods cond (map class_conditions bases))) as [s|].
    + injection B as <-. destruct (SU s eq_refl) as (S1 & S2 & S3). destruct OWN as (O1 & O2 & O3).
      unfold merge_fn. cbn [pre post raises]. split; [|split]; intros x X.
      * destruct (nonempty (pre _ p)); auto.
      * apply in_app_iff in X. destruct X; auto.
      * apply in_app_iff in X. destruct X; auto.
    + injection B as <-. exact OWN.
  - apply SU. exact B.
Qed.
Lemma sources c : forall n k, effective c n = Some k ->
     (forall x, In x (pre _ k) -> exists a, within cond c a /\ (states_pre cond a n x \/ invariant cond a x)) /\
     (forall x, In x (post _ k) -> exists a, within cond c a /\ (states_post cond a n x \/ invariant cond a x)) /\
     (forall x, In x (raises _ k) -> exists a, within cond c a /\ states_raises cond a n x).
Proof.
  induction c as [python bases members invs F] using cls_ind'. intros n k E.
  cbn [Inherit_Model.class_conditions] in E.
  destruct (first_class_cases (map class_conditions bases) python members any_class invs) as [H|(inv & p & H & _ & _ & I & _)];
    rewrite H in E; [discriminate|]. clear H.
  rewrite concrete_lookup, method_base in E.
  assert (INV : forall x, In x inv -> exists a, within cond (Cls python bases members invs) a /\ invariant cond a x).
  { intros x X. exists (Cls python bases members invs). split; [constructor|]. destruct I as [->|I]; [destruct X|].
    exists inv. auto. }
  assert (INI : init_conds inv = k ->
     (forall x, In x (pre _ k) -> exists a, within cond (Cls python bases members invs) a /\ (states_pre cond a n x \/ invariant cond a x)) /\
     (forall x, In x (post _ k) -> exists a, within cond (Cls python bases members invs) a /\ (states_post cond a n x \/ invariant cond a x)) /\
     (forall x, In x (raises _ k) -> exists a, within cond (Cls python bases members invs) a /\ states_raises cond a n x)).
  { intros <-. cbn. split; [tauto|]. split; [|tauto]. intros x X. destruct (INV x X) as (a & W & H). exists a. auto. }
  destruct (base members (merge_methods cond (map class_conditions bases)) n) as [b|] eqn:B.
  - destruct (base_of_source bases members invs python n b F B) as (H1 & H2 & H3).
    destruct (has_any cond (add_inv n inv b)).
    + injection E as <-. unfold add_inv. cbn [pre post raises]. split; [|split; [|exact H3]]; intros x X.
      * destruct (in_pre n); auto. apply in_app_iff in X. destruct X as [X|X]; auto.
        destruct (INV x X) as (a & W & H). exists a. auto.
      * destruct (in_post n); auto. apply in_app_iff in X. destruct X as [X|X]; auto.
        destruct (INV x X) as (a & W & H). exists a. auto.
    + destruct (String.eqb n "__init__" && nonempty inv); [|discriminate]. injection E as E. auto.
  - destruct (String.eqb n "__init__" && nonempty inv); [|discriminate]. injection E as E. auto.
Qed.

(** *** What is inherited *)
Lemma within_cls python bases members invs a : within cond (Cls python bases members invs) a ->
  a = Cls python bases members invs \/ exists b, In b bases /\ within cond b a.
Proof. intro W. inversion W; subst; eauto. Qed.

Lemma inherited n c a ka : any_class <> [] -> plain cond n c -> within cond c a -> effective a n = Some ka ->
  pre _ ka <> [] \/ post _ ka <> [] ->
  exists k, effective c n = Some k /\ incl (post _ ka) (post _ k) /\ incl (raises _ ka) (raises _ k) /\
            (pre _ k <> [] \/ post _ k <> []).
Proof.
  intros NE. revert a ka. induction c as [python bases members invs F] using cls_ind'. intros a ka P W E NE2.
  apply within_cls in W. destruct W as [->|(b & I & W)].
  - exists ka. split; [exact E|]. split; [apply incl_refl|]. split; [apply incl_refl|auto].
  - inversion P as [bases' members' invs' ONE ALL PB]; subst. clear P.
    rewrite Forall_forall in F, PB. destruct (F b I a ka (PB b I) W E NE2) as (kb & EB & IP & IR & NB).
    assert (bases = [b]) by (destruct bases as [|b' [|]]; [destruct I|destruct I as [->|[]]; auto|contradiction]). subst bases.
    assert (L : lookup n (merge_methods cond (map class_conditions [b])) = Some kb).
    { rewrite merge_lookup. cbn. now rewrite EB. }
    assert (B : exists m, base members (merge_methods cond (map class_conditions [b])) n = Some m /\
              incl (post _ kb) (post _ m) /\ incl (raises _ kb) (raises _ m) /\ (pre _ m <> [] \/ post _ m <> [])).
    { unfold base. rewrite L. destruct (lookup n members) as [l|] eqn:LM.
      - destruct (written cond l) as [p|] eqn:G; [|exfalso; exact (ALL l eq_refl G)].
        eexists. split; [reflexivity|]. cbn. split; [|split].
        + apply incl_appl, incl_refl.
        + apply incl_appr, incl_refl.
        + destruct NB as [NB|NB]; [left|right; destruct (post _ kb); [congruence|discriminate]].
          destruct (pre _ p); [exact NB|discriminate].
      - exists kb. split; [auto|]. split; [apply incl_refl|]. split; [apply incl_refl|auto]. }
    destruct B as (m & B & IP' & IR' & NM).
    assert (HM : has_any cond m = true).
    { unfold has_any. destruct NM as [NM|NM]; [destruct (pre _ m); [congruence|reflexivity]|].
      destruct (post _ m); [congruence|]. cbn. now rewrite orb_true_r. }
    rewrite (effective_base [b] members invs n m NE B HM). eexists. split; [reflexivity|].
    unfold add_inv. cbn [pre post raises]. split; [|split].
    + apply incl_tran with (post _ m); [exact (incl_tran IP IP')|]. destruct (in_post n); [apply incl_appl|]; apply incl_refl.
    + exact (incl_tran IR IR').
    + destruct NM as [NM|NM]; [left|right].
      * destruct (in_pre n); [|exact NM]. destruct (pre _ m); [congruence|discriminate].
      * destruct (in_post n); [|exact NM]. destruct (post _ m); [congruence|discriminate].
Qed.

Lemma stated n c p : any_class <> [] -> plain cond n c -> contract cond c n = Some p -> has_any cond p = true ->
  exists k, effective c n = Some k /\ incl (post _ p) (post _ k) /\ incl (raises _ p) (raises _ k) /\
            (pre _ p <> [] -> incl (pre _ p) (pre _ k)).
Proof.
  intros NE P C HP. inversion P as [bases members invs ONE ALL PB]; subst. cbn in C.
  destruct (lookup n members) as [l|] eqn:L; [|discriminate].
  set (ms := merge_methods cond (map class_conditions bases)).
  assert (B : exists m, base members ms n = Some m /\ incl (post _ p) (post _ m) /\ incl (raises _ p) (raises _ m) /\
              (pre _ p <> [] -> incl (pre _ p) (pre _ m)) /\ has_any cond m = true).
  { unfold base. rewrite L, C. destruct (lookup n ms) as [s|].
    - eexists. split; [reflexivity|]. cbn. split; [apply incl_appr, incl_refl|]. split; [apply incl_appl, incl_refl|].
      split; [destruct (pre _ p); [congruence|intros _; apply incl_refl]|].
      unfold has_any in *. cbn. destruct (pre _ p); [|reflexivity]. cbn in HP.
      apply orb_true_iff in HP. destruct HP as [HP|HP].
      + destruct (post _ p); [discriminate|]. destruct (post _ s); cbn; now rewrite orb_true_r.
      + rewrite HP. now rewrite !orb_true_r.
    - exists p. split; [auto|]. split; [apply incl_refl|]. split; [apply incl_refl|]. split; [intros _; apply incl_refl|auto]. }
  destruct B as (m & B & H1 & H2 & H3 & HM). rewrite (effective_base bases members invs n m NE B HM).
  eexists. split; [reflexivity|]. unfold add_inv. cbn [pre post raises]. split; [|split; [exact H2|]].
  - apply (incl_tran H1). destruct (in_post n); [apply incl_appl|]; apply incl_refl.
  - intro N. apply (incl_tran (H3 N)). destruct (in_pre n); [apply incl_appl|]; apply incl_refl.
Qed.

(** *** Mutable arguments *)
Lemma mutable_one_base b members invs n k : effective (Cls true [b] members invs) n = Some k ->
  forall m, base members (merge_methods cond (map class_conditions [b])) n = Some m -> mutable _ k = mutable _ m.
Proof.
  cbn [Inherit_Model.class_conditions]. intros E m B.
  destruct (first_class_cases (map class_conditions [b]) true members any_class invs) as [Z|(inv & p & Z & _)].
  - rewrite Z in E. discriminate.
  - rewrite Z, concrete_lookup, method_base, B in E.
    destruct (has_any cond (add_inv n inv m)) eqn:H.
    + injection E as <-. reflexivity.
    + destruct (String.eqb_spec n "__init__") as [->|]; [|discriminate].
      destruct inv as [|x inv]; [discriminate|]. exfalso. unfold has_any, add_inv in H. cbn in H.
      destruct (post _ m); cbn in H; rewrite orb_true_r in H; discriminate.
Qed.

(** *** Invariants *)
Lemma own_invariants c n k : effective c n = Some k ->
  (in_post n = true -> incl (invs_of c) (post _ k)) /\
  (in_pre n = true -> incl (invs_of c) (pre _ k)).
Proof.
  destruct c as [python bases members invs]. cbn [Inherit_Model.class_conditions].
  destruct (first_class_cases (map class_conditions bases) python members any_class invs) as [->|(inv & p & -> & _)]; [discriminate|].
  rewrite concrete_lookup, method_base. unfold concrete. cbn [negb fst].
  assert (INI : (if String.eqb n "__init__" && nonempty inv then Some (init_conds inv) else None) = Some k ->
    (in_post n = true -> incl inv (post _ k)) /\ (in_pre n = true -> incl inv (pre _ k))).
  { destruct (String.eqb_spec n "__init__") as [->|]; cbn [andb]; [|discriminate].
    destruct (nonempty inv); [|discriminate]. intro X. injection X as <-. cbn. split; [intros _; apply incl_refl|discriminate]. }
  destruct (base _ _ n) as [b|]; [|exact INI].
  destruct (has_any cond (add_inv n inv b)); [|exact INI].
  intro X. injection X as <-. unfold add_inv. cbn [pre post]. split; intros ->; apply incl_appr, incl_refl.
Qed.
Lemma init_has_invariants c : invs_of c <> [] -> exists k, effective c "__init__" = Some k /\ incl (invs_of c) (post _ k).
Proof.
  intro N.
  assert (E : exists k, effective c "__init__" = Some k).
  { destruct c as [python bases members invs]. cbn [Inherit_Model.class_conditions] in *.
    destruct (first_class_cases (map class_conditions bases) python members any_class invs) as [H|(inv & p & H & _)];
      rewrite H in *; [contradiction|].
    rewrite concrete_lookup. unfold concrete in N. cbn [negb fst] in N.
    destruct (method _ _ _ _ _); eauto. destruct inv; [contradiction|]. cbn. eauto. }
  destruct E as (k & E). exists k. split; [exact E|]. now apply (own_invariants c "__init__" k E).
Qed.

(** *** Overriding without a precondition *)
Inductive keeps (n : string) (a : cls) : cls -> Prop :=
| keeps_self : keeps n a a
| keeps_step b members invs :
    keeps n a b ->
    match lookup n members with
    | None => True
    | Some l => match written cond l with Some p => pre _ p = [] | None => False end
    end ->
    keeps n a (Cls true [b] members invs).
Lemma keeps_pre n c a ka : any_class <> [] -> keeps n a c -> effective a n = Some ka ->
  pre _ ka <> [] \/ post _ ka <> [] ->
  exists k, effective c n = Some k /\ incl (post _ ka) (post _ k) /\ (pre _ k <> [] \/ post _ k <> []) /\
    forall x, In x (pre _ k) -> In x (pre _ ka) \/ exists b, within cond c b /\ within cond b a /\ In x (invs_of b).
Proof.
  intros NE K E N0. induction K as [|b members invs K (kb & EB & IP & NB & H) NP].
  - exists ka. split; [auto|]. split; [apply incl_refl|]. auto.
  - assert (W : within cond b a).
    { clear - K. induction K; [constructor|]. econstructor; [now left|exact IHK]. }
    assert (L : lookup n (merge_methods cond (map class_conditions [b])) = Some kb).
    { rewrite merge_lookup. cbn. now rewrite EB. }
    assert (B : exists m, base members (merge_methods cond (map class_conditions [b])) n = Some m /\
              incl (post _ kb) (post _ m) /\ pre _ m = pre _ kb).
    { unfold base. rewrite L. destruct (lookup n members) as [l|].
      - destruct (written cond l) as [p|]; [|contradiction].
        eexists. split; [reflexivity|]. cbn. rewrite NP. split; [apply incl_appl, incl_refl|reflexivity].
      - exists kb. split; [auto|]. split; [apply incl_refl|auto]. }
    destruct B as (m & B & IP' & PM).
    assert (NM : pre _ m <> [] \/ post _ m <> []).
    { destruct NB as [NB|NB]; [left; congruence|right]. intro X. rewrite X in IP'.
      destruct (post _ kb) as [|x q]; [congruence|]. destruct (IP' x (or_introl eq_refl)). }
    assert (HM : has_any cond m = true).
    { unfold has_any. destruct NM as [NM|NM]; [destruct (pre _ m); [congruence|reflexivity]|].
      destruct (post _ m); [congruence|]. cbn. now rewrite orb_true_r. }
    rewrite (effective_base [b] members invs n m NE B HM). eexists. split; [reflexivity|].
    unfold add_inv. cbn [pre post]. split; [|split].
    + apply incl_tran with (post _ m); [exact (incl_tran IP IP')|]. destruct (in_post n); [apply incl_appl|]; apply incl_refl.
    + destruct NM as [NM|NM]; [left|right].
      * destruct (in_pre n); [|exact NM]. destruct (pre _ m); [congruence|discriminate].
      * destruct (in_post n); [|exact NM]. destruct (post _ m); [congruence|discriminate].
    + intros x X. rewrite PM in X.
      assert (D : In x (pre _ kb) \/ In x (invs_of (Cls true [b] members invs))).
      { destruct (in_pre n); [apply in_app_iff in X|]; tauto. }
      destruct D as [D|D].
      * destruct (H x D) as [D'|(q & Q1 & Q2 & Q3)]; [now left|]. right. exists q. split; [|auto].
        econstructor; [now left|exact Q1].
      * right. exists (Cls true [b] members invs). split; [constructor|]. split; [|exact D].
        econstructor; [now left|exact W].
Qed.
End P.

Lemma prefix_iff p : forall n, String.prefix p n = true <-> exists m, n = (p ++ m)%string.
Proof.
  induction p as [|a p IH]; intro n.
  - split; [intros _; now exists n|]. intros _. destruct n; reflexivity.
  - destruct n as [|b n]; [split; [discriminate|intros [m E]; discriminate]|]. cbn [String.prefix].
    destruct (Ascii.ascii_dec a b) as [<-|N].
    + rewrite IH. split; intros [m E]; exists m; [cbn; now rewrite E|now injection E].
    + split; [discriminate|]. intros [m E]. injection E. congruence.
Qed.
Lemma substring_all n : String.substring 0 (String.length n) n = n.
Proof. induction n as [|a n IH]; cbn; [reflexivity|now rewrite IH]. Qed.
Lemma substring_split n : forall i, i <= String.length n ->
  n = (String.substring 0 i n ++ String.substring i (String.length n - i) n)%string.
Proof.
  induction n as [|a n IH]; intros [|i] L; [reflexivity|inversion L| |].
  - cbn [String.length Nat.sub]. change (String.substring 0 0 (String a n)) with "". symmetry. apply (substring_all (String a n)).
  - cbn in *. f_equal. apply IH. lia.
Qed.
Lemma substring_app m n : String.substring (String.length m) (String.length n) (m ++ n) = n.
Proof. induction m as [|a m IH]; [apply substring_all|exact IH]. Qed.
Lemma length_app m n : String.length (m ++ n) = String.length m + String.length n.
Proof. induction m; cbn; auto. Qed.
Lemma ends_iff q n : String.length q <= String.length n -> ends q n = true <-> exists m, n = (m ++ q)%string.
Proof.
  intro L. unfold ends. rewrite String.eqb_eq. split.
  - intro E. exists (String.substring 0 (String.length n - String.length q) n). rewrite <- E at 2.
    rewrite (substring_split n (String.length n - String.length q)) at 1 by lia.
    now replace (String.length n - (String.length n - String.length q)) with (String.length q) by lia.
  - intros [m ->]. rewrite length_app. replace (String.length m + String.length q - String.length q) with (String.length m) by lia.
    apply substring_app.
Qed.
Lemma dunder_special n : dunder n = true <-> special n.
Proof.
  unfold dunder, special. rewrite andb_true_iff, prefix_iff. split; intros [A B]; (split; [exact A|]); destruct A as [m ->].
  - apply ends_iff in B; [exact B|rewrite length_app; cbn; lia].
  - apply ends_iff; [rewrite length_app; cbn; lia|exact B].
Qed.
