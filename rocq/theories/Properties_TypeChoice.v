(* C120: the classes that are tried for an argument, and the members of an enumeration. *)
From Coq Require Import String.
From Coq Require Import QArith List Bool Arith Lia Lqa.
From Verif Require Import Py TypeChoice_Model TypeChoice_Spec TypeChoice_Proofs.
Import ListNotations.

Definition abstract_of (cs : classes) (c : nat) : bool := c_abstract (cs c).

(** ** lemmas about the map *)
Lemma reach_subclass : forall cs all a c, reach (subclass_map cs all) a c -> subclass cs c a.
Proof.
  intros cs all a c R. induction R as [|a d x I R IH]; [constructor|].
  apply submap_in in I as (_ & _ & _ & _ & B). clear R. induction IH as [|x b d' I' IH1 IH2]; [econstructor; [exact B|constructor]|].
  econstructor; eauto.
Qed.
Lemma reach_trans : forall m a b c, reach m a b -> reach m b c -> reach m a c.
Proof. intros m a b c R. induction R; auto. intros. econstructor; eauto. Qed.
Lemma usable_collected : forall c, usable c -> ~ In "__copy___"%string (c_names c) -> collected c = true.
Proof.
  intros c (H & M & N) C. apply collected_iff. split; [exact M|]. split; auto.
  intros n I J. apply (N n I). cbn in *. intuition. subst. easy.
Qed.
Lemma usable_reach : forall cs all c a, (forall c, In c all -> ~ In "__copy___"%string (c_names (cs c))) ->
  usable_subclass cs all c a -> reach (subclass_map cs all) a c.
Proof.
  intros cs all c a T U. induction U as [c I U|c b a I U B U' IH]; [constructor|].
  apply reach_trans with b; auto. apply reach_step with c; [|constructor]. apply submap_in.
  assert (Ib : In b all /\ usable (cs b)) by (inversion U'; auto).
  destruct Ib. repeat split; auto using usable_collected.
Qed.
(** The loop ends: enough fuel is enough for all. *)
Lemma crawl_map_ends : forall cs all from, well_founded_classes cs all -> exists fuel l,
  forall g, (fuel <= g)%nat -> crawl g (subclass_map cs all) [from] = Ok l.
Proof.
  intros cs all from (rank & W).
  set (top := fold_right (fun c n => Nat.max (rank c) n) 0%nat all).
  assert (T : forall c, In c all -> (rank c <= top)%nat).
  { unfold top. clear. induction all as [|x l IH]; [easy|]. intros c [<-|I]; cbn; [lia|]. specialize (IH c I). lia. }
  destruct (crawl_ends (subclass_map cs all) rank top) with (fuel := S (total (subclass_map cs all) top [from])) (q := [from]) as (l & E).
  - intros c d I. apply submap_in in I as (_ & _ & I & _ & B). split; auto.
  - lia.
  - exists (S (total (subclass_map cs all) top [from])), l. intros g L. eapply crawl_more; eauto.
Qed.
Lemma iter_fst : forall fuel submap abstract from l, crawl fuel submap [from] = Ok l -> exists pairs,
  iter_types fuel submap abstract from false = Ok pairs /\ map fst pairs = filter (fun c => negb (abstract c)) l /\
  (pairs <> [] -> stops pairs).
Proof.
  intros fuel submap abstract from l E. unfold iter_types. rewrite E. cbn [bind orb].
  set (ts := filter (fun c => negb (abstract c)) l). destruct ts as [|t ts]; [exists []; now split|].
  rewrite uniform_cons. destruct (Nat.eqb t from) eqn:F.
  - apply Nat.eqb_eq in F as ->. eexists. split; [reflexivity|]. split; [cbn; now rewrite uniform_fst|]. intros _.
    destruct ts as [|t2 ts].
    + exists [], from. eexists. split; [reflexivity|]. split; [reflexivity|constructor].
    + destruct (uniform_stops (t2 :: ts) ltac:(easy)) as (r & x & p & Er & P & Fr).
      unfold with_uniform_probabilities in Er. rewrite Er.
      eexists (_ :: r), x, p. split; [reflexivity|]. split; auto. constructor; auto. cbn [snd]. intros Q1.
      pose proof (inv_lt_1 (S (length (t2 :: ts))) ltac:(cbn; lia)) as L.
      assert (X : (1 / inject_Z (Z.of_nat (S (length (t2 :: ts)))) == 1)%Q) by (revert Q1; generalize (1 / inject_Z (Z.of_nat (S (length (t2 :: ts)))))%Q; clear; intros q Q1; unfold Qdiv in Q1; change (/ 4)%Q with (1 # 4)%Q in Q1; lra).
      rewrite X in L. now apply Qlt_irrefl in L.
  - eexists. split; [reflexivity|]. split; [cbn; now rewrite uniform_fst|]. intros _. rewrite <- uniform_cons. now apply uniform_stops.
Qed.

(** C120.  The full claim: for an argument of a class, each of its concrete subclasses that are in
    memory and usable is tried on some path, and no other class; if there is none, the path is
    dropped:

      forall cs all from, In from all -> usable (cs from) -> well_founded_classes cs all -> exists fuel,
        (forall ds, exists r, choose_type fuel (subclass_map cs all) (abstract_of cs) from ds = Ok r /\
           match r with
           | Some t => subclass cs t from /\ c_abstract (cs t) = false /\ usable (cs t)
           | None => forall t, In t all -> usable (cs t) -> subclass cs t from -> c_abstract (cs t) = true
           end) /\
        forall t, In t all -> usable (cs t) -> subclass cs t from -> c_abstract (cs t) = false ->
          exists ds, choose_type fuel (subclass_map cs all) (abstract_of cs) from ds = Ok (Some t)

    Proved: what is tried is a concrete subclass, and all subclasses that come from the class
    through usable classes are tried (unless one defines "__copy___", with three underscores).
    Refuted: subclasses of classes that are not usable; the classes tried are not all usable. *)
Theorem type_choice_partial : forall cs all from, well_founded_classes cs all -> exists fuel,
  forall g, (fuel <= g)%nat ->
  (forall ds, exists r, choose_type g (subclass_map cs all) (abstract_of cs) from ds = Ok r /\
     match r with
     | Some t => subclass cs t from /\ c_abstract (cs t) = false
     | None => forall t, (forall c, In c all -> ~ In "__copy___"%string (c_names (cs c))) ->
                 usable_subclass cs all t from -> c_abstract (cs t) = true
     end) /\
  forall t, (forall c, In c all -> ~ In "__copy___"%string (c_names (cs c))) ->
    usable_subclass cs all t from -> c_abstract (cs t) = false ->
    exists ds, choose_type g (subclass_map cs all) (abstract_of cs) from ds = Ok (Some t).
Proof.
  intros cs all from W. destruct (crawl_map_ends cs all from W) as (fuel & l & E). exists fuel. intros g Lg. specialize (E g Lg).
  pose proof (crawl_in _ _ _ _ E) as I. destruct (iter_fst _ _ (abstract_of cs) _ _ E) as (pairs & P & F & St).
  unfold choose_type. rewrite P. cbn [bind].
  assert (M : forall t, In t (map fst pairs) <-> reach (subclass_map cs all) from t /\ c_abstract (cs t) = false).
  { intros t. rewrite F, filter_In, I. unfold abstract_of. rewrite negb_true_iff. split.
    - intros ((c & [<-|[]] & R) & A). auto.
    - intros (R & A). split; auto. exists from. split; auto. now left. }
  destruct pairs as [|x pairs].
  - split.
    + intros ds. eexists. split; [reflexivity|]. cbn. intros t T U. destruct (c_abstract (cs t)) eqn:A; auto.
      exfalso. apply (M t). split; auto. now apply usable_reach.
    + intros t T U A. exfalso. apply (M t). split; auto. now apply usable_reach.
  - specialize (St ltac:(easy)). split.
    + intros ds. destruct (pick_total _ ds St) as (t & Pt). rewrite Pt. cbn [bind]. eexists. split; [reflexivity|]. cbn.
      apply pick_sound in Pt. apply M in Pt as (R & A). split; auto. eapply reach_subclass; eauto.
    + intros t T U A. destruct (pick_all _ t St) as (ds & D); [apply M; split; auto; now apply usable_reach|].
      exists ds. now rewrite D.
Qed.

(** How likely the classes are, if both sides of a fork stay open: the class itself, when it is
    concrete, three times out of four and more; the others equally, once for each way that leads
    from the class to them. *)
Theorem type_choice_chances : forall fuel submap abstract from pairs,
  iter_types fuel submap abstract from false = Ok pairs ->
  let n := inject_Z (Z.of_nat (length pairs)) in
  let ps := map snd pairs in
  if abstract from
  then forall i, (i < length pairs)%nat -> (chance ps i == 1 / n)%Q
  else (chance ps 0 == 3 / 4 + 1 / (4 * n))%Q /\ nth_error (map fst pairs) 0 = Some from /\
       forall i, (0 < i < length pairs)%nat -> (chance ps i == 1 / (4 * n))%Q.
Proof.
  intros fuel submap abstract from pairs E. unfold iter_types in E.
  destruct (crawl fuel submap [from]) as [l|] eqn:C; cbn [bind orb] in E; [|easy].
  destruct (crawl_head _ _ _ _ _ C) as (l' & ->). cbn [filter] in E.
  destruct (abstract from) eqn:A; cbn [negb] in E.
  - set (ts := filter (fun c => negb (abstract c)) l') in E. intros n ps i L.
    assert (X : ~ In from ts) by (unfold ts; rewrite filter_In, A; cbn; intuition).
    destruct ts as [|t ts]; [injection E as <-; cbn in L; lia|]. rewrite uniform_cons in E.
    destruct (Nat.eqb t from) eqn:F; [apply Nat.eqb_eq in F as ->; destruct X; now left|].
    rewrite <- uniform_cons in E. injection E as <-. unfold ps, n.
    assert (Ln : length (with_uniform_probabilities (t :: ts)) = length (t :: ts)).
    { rewrite <- (map_length fst). unfold with_uniform_probabilities. now rewrite uniform_fst. }
    rewrite Ln in *. now apply uniform_chance.
  - set (ts := filter (fun c => negb (abstract c)) l') in E. rewrite uniform_cons, Nat.eqb_refl in E. injection E as <-.
    cbn [length map snd fst]. rewrite <- (map_length fst (uniform_from (length ts) ts)), uniform_fst.
    assert (P : (0 < inject_Z (Z.of_nat (length ts)) + 1)%Q) by (rewrite <- succ_Q; apply pos_Q; lia).
    split; [|split; [reflexivity|]].
    + cbn [chance]. set (m := inject_Z (Z.of_nat (S (length ts)))). change (inject_Z (Z.pos _)) with m. assert (N0 : ~ m == 0) by (unfold m; rewrite succ_Q; intros X; lra). field. auto.
    + intros [|i] L; [lia|]. cbn [chance]. change (uniform_from (length ts) ts) with (with_uniform_probabilities ts).
      rewrite uniform_chance by lia. change (Z.pos (Pos.of_succ_nat (length ts))) with (Z.of_nat (S (length ts))). rewrite succ_Q.
      assert (P' : (0 < inject_Z (Z.of_nat (length ts)))%Q) by (apply pos_Q; lia). field. split; intros X; lra.
Qed.

(** An enumeration's members: each is tried on some path, and nothing else. *)
Theorem enum_choice : forall T (l : list T),
  (forall ds x, pick_member l ds = Some x -> In x l) /\
  (forall ds, l <> [] -> pick_member l ds <> None) /\
  (forall x, In x l -> exists ds, pick_member l ds = Some x).
Proof.
  intros T l. split; [|split].
  - induction l as [|a l IH]; intros ds x E; [easy|]. cbn [pick_member] in E. destruct l as [|b l].
    + injection E as <-. now left.
    + destruct (ds O); [injection E as <-; now left|]. right. eauto.
  - induction l as [|a l IH]; intros ds N; [easy|]. cbn [pick_member]. destruct l as [|b l]; [easy|].
    destruct (ds O); [easy|]. now apply IH.
  - induction l as [|a l IH]; intros x I; [easy|]. destruct I as [<-|I].
    + exists (fun _ => true). cbn. now destruct l.
    + destruct (IH x I) as (ds & D). exists (fun i => match i with O => false | S i => ds i end). cbn [pick_member].
      destruct l; [easy|]. exact D.
Qed.
Example enum_example : pick_member [1; 2; 3]%nat (fun i => Nat.eqb i 1) = Some 2%nat /\ pick_member [1; 2; 3]%nat (fun _ => false) = Some 3%nat.
Proof. split; reflexivity. Qed.

(** 0 is object, 1 an abstract class, 2 and 3 its concrete subclasses, 4 a subclass of both; 5 is
    a concrete subclass of 6, which is a subclass of 2 that is in no module; 7 has __copy__. *)
Definition zoo : classes := fun c => match c with
  | 1 => Cls [0] ["__len__"] true true ["zoo"]
  | 2 => Cls [1] [] false true ["zoo"; "zoo.inner"]
  | 3 => Cls [1] [] false true ["zoo"]
  | 4 => Cls [2; 3] [] false true ["crosshair.core"; "zoo"]
  | 5 => Cls [6] [] false true ["zoo"]
  | 6 => Cls [2] [] false true []
  | 7 => Cls [3] ["__copy__"] false true ["zoo"]
  | _ => Cls [] [] false true ["builtins"]
  end%string%nat.
Definition animals : list nat := [0; 1; 2; 3; 4; 5; 6; 7]%nat.
Lemma zoo_not_ignored : ~ ignored_module "zoo".
Proof. rewrite <- ignored_iff. cbn. intuition discriminate. Qed.
(** the modules of an ignored package are ignored, others that begin with its name are not *)
Example ignored_modules : ignored_module "pytest.main" /\ ignored_module "py" /\ ~ ignored_module "pygments" /\ ~ ignored_module "zoo.py".
Proof. rewrite <- !ignored_iff. cbn. repeat split; try tauto; intuition discriminate. Qed.
Example zoo_good : well_founded_classes zoo animals /\ usable_subclass zoo animals 4 1 /\
  (forall c, In c animals -> ~ In "__copy___"%string (c_names (zoo c))) /\
  (exists pairs, iter_types 20 (subclass_map zoo animals) (abstract_of zoo) 1 false = Ok pairs /\ map fst pairs = [2; 3; 4; 4; 7]%nat) /\
  choose_type 20 (subclass_map zoo animals) (abstract_of zoo) 1 (fun i => Nat.eqb i 2) = Ok (Some 4%nat).
Proof.
  assert (U : forall c, In c [1; 2; 4]%nat -> usable (zoo c)).
  { intros c [<-|[<-|[<-|[]]]]; (split; [reflexivity|]; split; [exists "zoo"%string; split; [cbn; auto|exact zoo_not_ignored]|]);
      cbn; intuition (subst; discriminate). }
  split; [|split; [|split; [|split; [eexists; split; reflexivity|reflexivity]]]].
  - exists (fun c => match c with 5 => 7 | 6 => 6 | 7 => 8 | c => c end)%nat. intros c b I B.
    repeat (destruct I as [<-|I]; [cbn in B; intuition (subst; cbn; lia)|]). easy.
  - assert (A : forall c, In c [1; 2; 4]%nat -> In c animals) by (cbn; intuition).
    apply us_base with 2%nat; [apply A|apply U| |]; cbn; auto. apply us_base with 1%nat; [apply A|apply U| |]; cbn; auto.
    constructor; [apply A|apply U]; cbn; auto.
  - intros c I J. repeat (destruct I as [<-|I]; [cbn in J; intuition discriminate|]). easy.
Qed.

(** A subclass of a class that is in no module is never tried. *)
Theorem hidden_base_refuted : exists cs all from t,
  well_founded_classes cs all /\ In from all /\ usable (cs from) /\ In t all /\ usable (cs t) /\ subclass cs t from /\ c_abstract (cs t) = false /\
  forall fuel ds, choose_type fuel (subclass_map cs all) (abstract_of cs) from ds <> Ok (Some t).
Proof.
  exists zoo, animals, 2%nat, 5%nat. split; [apply zoo_good|]. split; [cbn; auto|]. split.
  { split; [reflexivity|]. split; [exists "zoo"%string; split; [cbn; auto|exact zoo_not_ignored]|]. cbn. easy. }
  split; [cbn; intuition|]. split.
  { split; [reflexivity|]. split; [exists "zoo"%string; split; [cbn; auto|exact zoo_not_ignored]|]. cbn. easy. }
  split; [apply subclass_base with 6%nat; cbn; auto; apply subclass_base with 2%nat; cbn; auto; constructor|]. split; [reflexivity|].
  intros fuel ds E. unfold choose_type in E. destruct (iter_types _ _ _ _ _) as [pairs|] eqn:I; cbn [bind] in E; [|easy].
  unfold iter_types in I. destruct (crawl fuel (subclass_map zoo animals) [2%nat]) as [l|] eqn:C; cbn [bind] in I; [|easy].
  assert (L : forall x, In x (map fst pairs) -> In x l).
  { destruct (iter_fst _ _ (abstract_of zoo) _ _ C) as (p & P & F & _). unfold iter_types in P. rewrite C in P. cbn [bind] in P.
    rewrite P in I. injection I as <-. intros x J. rewrite F, filter_In in J. tauto. }
  destruct pairs as [|p pairs]; [discriminate|]. destruct (pick (p :: pairs) ds) as [t|] eqn:K; cbn [bind] in E; [|easy]. injection E as ->.
  apply pick_sound in K. apply L in K. apply (crawl_in _ _ _ _ C) in K as (c & [<-|[]] & R).
  assert (X : forall a b, reach (subclass_map zoo animals) a b -> (a = 2 \/ a = 4)%nat -> (b = 2 \/ b = 4)%nat).
  { clear. intros a b R. induction R as [|a d b J R IH]; auto. intros [->| ->]; apply IH; cbn in J; intuition. }
  destruct (X _ _ R) as [H|H]; auto; discriminate.
Qed.
(** A class that brings its own __copy__ is tried: the list of names says "__copy___". *)
Theorem custom_copy_refuted : exists cs all from t fuel ds,
  choose_type fuel (subclass_map cs all) (abstract_of cs) from ds = Ok (Some t) /\ In from all /\ usable (cs from) /\ ~ usable (cs t).
Proof.
  exists zoo, animals, 3%nat, 7%nat, 20%nat, (fun i => Nat.eqb i 2). split; [reflexivity|]. split; [cbn; auto|]. split.
  - split; [reflexivity|]. split; [exists "zoo"%string; split; [cbn; auto|exact zoo_not_ignored]|]. cbn. easy.
  - intros (_ & _ & N). apply (N "__copy__"%string); cbn; auto.
Qed.

Print Assumptions type_choice_partial.
Print Assumptions type_choice_chances.
Print Assumptions enum_choice.
Print Assumptions hidden_base_refuted.
Print Assumptions custom_copy_refuted.
