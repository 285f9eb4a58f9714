(** Symbolic classes (C126).

    Full property: a path that reports a class is what happens with that class; the class is one
    that the annotation allows; and every class that the annotation allows and that is in memory
    is reported by some path, which does what happens with it. *)
From Coq Require Import List Bool Arith Lia.
From Verif Require Import SymType_Model SymType_Spec.
Import ListNotations.

(** Only classes, and tuples of them, are asked for. *)
Inductive plain_super : super -> Prop :=
  | PClass t : plain_super (SClass t)
  | PTuple l : Forall plain_super l -> plain_super (STuple l).
Fixpoint plain (p : prog) : Prop :=
  match p with
  | Done _ => True
  | IsSub q k => plain_super q /\ forall a, plain (k a)
  | IsSuper _ k => forall a, plain (k a)
  | Equals _ k => forall a, plain (k a)
  | Realize k => forall a, plain (k a)
  end.

Section Ind.
  Variable P : super -> Prop.
  Hypothesis HC : forall t, P (SClass t).
  Hypothesis HU : forall l, P (SUnion l).
  Hypothesis HT : forall l, Forall P l -> P (STuple l).
  Hypothesis HO : P SOther.
  Fixpoint super_ind' (p : super) : P p :=
    match p with
    | SClass t => HC t
    | SUnion l => HU l
    | STuple l => HT l ((fix go l := match l return Forall P l with [] => Forall_nil _ | x :: r => Forall_cons _ (super_ind' x) (go r) end) l)
    | SOther => HO
    end.
End Ind.

Section Classes.
  Variable sub : cls -> cls -> maybe.
  Variable tried : cls -> list cls.
  Variable object : cls.
  Variable eager : list cls.
  Notation realize := (realize tried object eager).
  Notation is_subclass_of := (is_subclass_of sub tried object eager).
  Notation is_superclass_of := (is_superclass_of sub tried object eager).
  Notation issubclass := (issubclass sub tried object eager).
  Notation run := (run sub tried object eager).
  Notation path := (path sub tried object eager).
  Notation satisfies := (satisfies sub).
  Notation allowed := (allowed sub).

  Lemma get_type_in ks t : In t (get_type ks t).
  Proof.
    unfold get_type. destruct (existsb (Nat.eqb t) ks) eqn:E; [|now left].
    apply existsb_exists in E. destruct E as (x & X & Y). apply Nat.eqb_eq in Y. now subst.
  Qed.
  Lemma get_type_incl ks t : incl ks (get_type ks t).
  Proof. unfold get_type. destruct (existsb (Nat.eqb t) ks); [apply incl_refl|apply incl_tl, incl_refl]. Qed.

  (** * What is kept *)
  Section Sound.
    Variable I : interp.
    Variable K : list cls.
    Variable t : cls.
    Hypothesis SAT : satisfies I K.
    Hypothesis TK : In t K.
    Hypothesis VT : var I = const I t.

    Lemma try_all_ok l : forall ks r ks', try_all I l ks = (r, ks') -> incl ks ks' /\ match r with Some u => In u ks' /\ is_const I u = true | None => True end.
    Proof.
      induction l as [|x l IH]; intros ks r ks' E; cbn in E.
      - injection E as <- <-. split; [apply incl_refl|trivial].
      - destruct (is_const I x) eqn:X.
        + injection E as <- <-. split; [apply get_type_incl|]. split; [apply get_type_in|exact X].
        + destruct (IH _ _ _ E) as [A B]. split; [|exact B]. eapply incl_tran; [apply get_type_incl|exact A].
    Qed.
    Definition fine (s : state) : Prop := match realization s with Some u => In u (known s) /\ is_const I u = true | None => True end.
    Lemma const_is u : In u K -> is_const I u = true -> u = t.
    Proof.
      intros UK C. apply is_const_ok in C. destruct (Nat.eq_dec u t) as [E|E]; [exact E|]. exfalso.
      destruct (SAT u t UK TK) as [N _]. apply (N E). congruence.
    Qed.
    Lemma realize_ok s u s' : fine s -> realize I s = Some (u, s') -> incl (known s) (known s') /\ fine s' /\ realization s' = Some u /\ (incl (known s') K -> u = t).
    Proof.
      intros F E. unfold SymType_Model.realize in E. unfold fine in F. destruct (realization s) as [v|] eqn:R.
      - injection E as <- <-. destruct F as [F1 F2]. split; [apply incl_refl|]. split; [unfold fine; now rewrite R|].
        split; [exact R|]. intro IN. apply const_is; auto.
      - destruct (try_all _ _ _) as [[v|] ks] eqn:T; [|discriminate]. injection E as <- <-. apply try_all_ok in T.
        destruct T as [A [B C]]. cbn. split; [exact A|]. split; [unfold fine; cbn; auto|]. split; [reflexivity|].
        intro IN. apply const_is; auto.
    Qed.
    Lemma fine_more s ks c : fine s -> incl (known s) ks -> fine (State ks c (realization s)).
    Proof. unfold fine. cbn. destruct (realization s); [|trivial]. intros [A B] C. split; auto. Qed.

    Definition right (a : answer) (b : answer) (s s' : state) : Prop :=
      incl (known s) (known s') /\ fine s' /\ (incl (known s') K -> a = b).
    Lemma is_subclass_of_ok s u a s' : fine s -> is_subclass_of I s u = Some (a, s') -> right a (py_issubclass sub t (SClass u)) s s'.
    Proof.
      intros F E. unfold SymType_Model.is_subclass_of in E. cbn [known cap realization] in E.
      assert (FM := fine_more s (get_type (known s) u) (cap s) F (get_type_incl _ _)).
      assert (A : forall ks, incl (get_type (known s) u) ks -> incl ks K -> fn I (var I) (const I u) = sub t u).
      { intros ks X Y. rewrite VT. apply SAT; [exact TK|]. apply Y, X, get_type_in. }
      destruct (fn I (var I) (const I u)) eqn:FV; cbn [of_maybe] in E.
      1,2: injection E as <- <-; match goal with |- context [if ?b then _ else _] => destruct b end; cbn; unfold right; cbn [known];
        (split; [apply get_type_incl|]); (split; [apply fine_more; [exact F|apply get_type_incl]|]); intro IN;
        rewrite <- (A _ (incl_refl _) IN); reflexivity.
      destruct (realize I _) as [[v s2]|] eqn:R; [|discriminate]. injection E as <- <-.
      destruct (realize_ok _ _ _ FM R) as (B & C & _ & G). cbn [known] in B. split; [eapply incl_tran; [apply get_type_incl|exact B]|].
      split; [exact C|]. intro IN. rewrite (G IN). cbn. now destruct (sub t u).
    Qed.
    Lemma is_superclass_of_ok s u a s' : fine s -> is_superclass_of I s u = Some (a, s') -> right a (py_issubclass sub u (SClass t)) s s'.
    Proof.
      intros F E. unfold SymType_Model.is_superclass_of in E. cbn [known cap realization] in E.
      assert (FM := fine_more s (get_type (known s) u) (cap s) F (get_type_incl _ _)).
      assert (A : forall ks, incl (get_type (known s) u) ks -> incl ks K -> fn I (const I u) (var I) = sub u t).
      { intros ks X Y. rewrite VT. apply SAT; [|exact TK]. apply Y, X, get_type_in. }
      destruct (fn I (const I u) (var I)) eqn:FV; cbn [of_maybe] in E.
      1,2: injection E as <- <-; unfold right; cbn [known];
        (split; [apply get_type_incl|]); (split; [exact FM|]); intro IN; cbn;
        rewrite <- (A _ (incl_refl _) IN); reflexivity.
      destruct (realize I _) as [[v s2]|] eqn:R; [|discriminate]. injection E as <- <-.
      destruct (realize_ok _ _ _ FM R) as (B & C & _ & G). cbn [known] in B. split; [eapply incl_tran; [apply get_type_incl|exact B]|].
      split; [exact C|]. intro IN. rewrite (G IN). cbn. now destruct (sub u t).
    Qed.
    Lemma issubclass_ok p : plain_super p -> forall s a s', fine s -> issubclass I p s = Some (a, s') -> right a (py_issubclass sub t p) s s'.
    Proof.
      induction p as [u|l|l IH|] using super_ind'; intros PS s a s' F E; try (now inversion PS).
      - eapply is_subclass_of_ok; eauto.
      - inversion PS as [|l' PL]. subst l'. clear PS. cbn [SymType_Model.issubclass py_issubclass] in *.
        revert s F E. induction IH as [|p l IP IH IHl]; intros s F E.
        + injection E as <- <-. split; [apply incl_refl|]. split; [exact F|reflexivity].
        + inversion PL as [|p' l' PP PL' EP]. subst p' l'. clear PL.
          destruct (issubclass I p s) as [[b s2]|] eqn:EP2; [|discriminate].
          destruct (IP PP _ _ _ F EP2) as (A & B & C).
          destruct b as [[|]| |].
          * injection E as <- <-. split; [exact A|]. split; [exact B|]. intro IN. now rewrite <- (C IN).
          * destruct (IHl PL' _ B E) as (A2 & B2 & C2). split; [eapply incl_tran; eauto|]. split; [exact B2|].
            intro IN. rewrite <- (C (incl_tran A2 IN)). exact (C2 IN).
          * injection E as <- <-. split; [exact A|]. split; [exact B|]. intro IN. now rewrite <- (C IN).
          * injection E as <- <-. split; [exact A|]. split; [exact B|]. intro IN. now rewrite <- (C IN).
    Qed.
    Lemma run_ok p : plain p -> forall s r s', fine s -> run I p s = Some (r, s') ->
      incl (known s) (known s') /\ fine s' /\ (incl (known s') K -> r = native sub t p).
    Proof.
      induction p as [r0|q k IH|u k IH|u k IH|k IH]; intros PL s r s' F E; cbn [SymType_Model.run native plain] in *.
      - injection E as <- <-. split; [apply incl_refl|]. auto.
      - destruct PL as [PS PL]. destruct (issubclass I q s) as [[a s2]|] eqn:Q; [|discriminate].
        destruct (issubclass_ok q PS _ _ _ F Q) as (A & B & C). destruct (IH a (PL a) _ _ _ B E) as (A2 & B2 & C2).
        split; [eapply incl_tran; eauto|]. split; [exact B2|]. intro IN. rewrite <- (C (incl_tran A2 IN)). exact (C2 IN).
      - destruct (is_superclass_of I s u) as [[a s2]|] eqn:Q; [|discriminate].
        destruct (is_superclass_of_ok _ _ _ _ F Q) as (A & B & C). destruct (IH a (PL a) _ _ _ B E) as (A2 & B2 & C2).
        split; [eapply incl_tran; eauto|]. split; [exact B2|]. intro IN. rewrite <- (C (incl_tran A2 IN)). exact (C2 IN).
      - destruct (IH _ (PL _) _ _ _ (fine_more s _ (cap s) F (get_type_incl _ u)) E) as (A2 & B2 & C2). cbn [known] in A2.
        split; [eapply incl_tran; [apply get_type_incl|exact A2]|]. split; [exact B2|]. intro IN. rewrite (C2 IN). f_equal. f_equal.
        destruct (is_const I u) eqn:Q.
        + symmetry. apply Nat.eqb_eq. symmetry. apply const_is; [|exact Q]. apply IN, A2, get_type_in.
        + symmetry. apply Nat.eqb_neq. intros <-. apply is_const_ok in VT. congruence.
      - destruct (realize I s) as [[v s2]|] eqn:R; [|discriminate]. destruct (realize_ok _ _ _ F R) as (A & B & _ & C).
        destruct (IH v (PL v) _ _ _ B E) as (A2 & B2 & C2). split; [eapply incl_tran; eauto|]. split; [exact B2|].
        intro IN. rewrite (C2 IN). now rewrite (C (incl_tran A2 IN)).
    Qed.
  End Sound.

  (** A path that reports class t does what happens with t, and the annotation allows t.
      Missing: unions and things that are not classes, refuted below. *)
  Theorem symbolic_class_partial I p captype r t ks : plain p ->
    path I p captype = Some (r, t, ks) -> allowed I captype ks ->
    r = native sub t p /\ py_issubclass sub t (SClass captype) = Bool true.
  Proof.
    intros PL E [SAT INI]. unfold SymType_Model.path in E. destruct (run I p _) as [[r' s]|] eqn:R; [|discriminate].
    destruct (realize I s) as [[u s2]|] eqn:Q; [|discriminate]. injection E as <- <- <-.
    assert (X : forall (s : state) u s', fine I s -> realize I s = Some (u, s') -> incl (known s) (known s') /\ In u (known s') /\ is_const I u = true).
    { clear. intros s u s' F E. unfold SymType_Model.realize in E. unfold fine in F. destruct (realization s) as [v|] eqn:R.
      - injection E as <- <-. destruct F. split; [apply incl_refl|]. auto.
      - destruct (try_all _ _ _) as [[v|] ks] eqn:T; [|discriminate]. injection E as <- <-. apply try_all_ok in T. cbn. tauto. }
    (* the program leaves a good state, whatever the class turns out to be *)
    assert (FS : incl [captype] (known s) /\ fine I s).
    { assert (Y : forall p s r s', fine I s -> run I p s = Some (r, s') -> incl (known s) (known s') /\ fine I s').
      { clear -X. 
        assert (S1 : forall s u a s', fine I s -> is_subclass_of I s u = Some (a, s') -> incl (known s) (known s') /\ fine I s').
        { intros s u a s' F E. unfold SymType_Model.is_subclass_of in E. cbn [known cap realization] in E.
          assert (FM := fine_more I s (get_type (known s) u) (cap s) F (get_type_incl _ _)).
          destruct (fn I _ _); [| |destruct (realize I _) as [[v s2]|] eqn:R; [|discriminate]]; injection E as <- <-;
            [match goal with |- context [if ?b then _ else _] => destruct b end; cbn; (split; [apply get_type_incl|now apply fine_more; [|apply get_type_incl]])..|].
          destruct (X _ _ _ FM R) as (A & B & C). split; [eapply incl_tran; [apply get_type_incl|exact A]|].
          unfold SymType_Model.realize in R. cbn [known cap realization] in R. destruct (realization s) as [w|] eqn:RS.
          - injection R as <- <-. exact FM.
          - destruct (try_all _ _ _) as [[w|] ks']; [|discriminate]. injection R as <- <-. unfold fine. cbn. auto. }
        assert (S3 : forall s u s', fine I s -> realize I s = Some (u, s') -> incl (known s) (known s') /\ fine I s').
        { intros s u s' F R. destruct (X _ _ _ F R) as (A & B & C). split; [exact A|].
          unfold SymType_Model.realize in R. destruct (realization s) as [w|] eqn:RS.
          - injection R as <- <-. exact F.
          - destruct (try_all _ _ _) as [[w|] ks']; [|discriminate]. injection R as <- <-. unfold fine. cbn. auto. }
        assert (S2 : forall s u a s', fine I s -> is_superclass_of I s u = Some (a, s') -> incl (known s) (known s') /\ fine I s').
        { intros s u a s' F E. unfold SymType_Model.is_superclass_of in E. cbn [known cap realization] in E.
          assert (FM := fine_more I s (get_type (known s) u) (cap s) F (get_type_incl _ _)).
          destruct (fn I _ _); [| |destruct (realize I _) as [[v s2]|] eqn:R; [|discriminate]]; injection E as <- <-;
            [split; [apply get_type_incl|exact FM]..|].
          destruct (S3 _ _ _ FM R) as (A & B). split; [eapply incl_tran; [apply get_type_incl|exact A]|exact B]. }
        assert (S4 : forall q s a s', fine I s -> issubclass I q s = Some (a, s') -> incl (known s) (known s') /\ fine I s').
        { induction q as [u|l|l IH|] using super_ind'; intros s a s' F E.
          - eapply S1; eauto.
          - injection E as <- <-. split; [apply incl_refl|exact F].
          - cbn [SymType_Model.issubclass] in E. revert s F E. induction IH as [|q l IQ IH IHl]; intros s F E.
            + injection E as <- <-. split; [apply incl_refl|exact F].
            + destruct (issubclass I q s) as [[b s2]|] eqn:EQ; [|discriminate]. destruct (IQ _ _ _ F EQ) as [A B].
              destruct b as [[|]| |]; try (injection E as <- <-; now split).
              destruct (IHl _ B E) as [A2 B2]. split; [eapply incl_tran; eauto|exact B2].
          - injection E as <- <-. split; [apply incl_refl|exact F]. }
        induction p as [r0|q k IH|u k IH|u k IH|k IH]; intros s r s' F E; cbn [SymType_Model.run] in E.
        - injection E as <- <-. split; [apply incl_refl|exact F].
        - destruct (issubclass I q s) as [[a s2]|] eqn:Q; [|discriminate]. destruct (S4 _ _ _ _ F Q) as [A B].
          destruct (IH _ _ _ _ B E) as [A2 B2]. split; [eapply incl_tran; eauto|exact B2].
        - destruct (is_superclass_of I s u) as [[a s2]|] eqn:Q; [|discriminate]. destruct (S2 _ _ _ _ F Q) as [A B].
          destruct (IH _ _ _ _ B E) as [A2 B2]. split; [eapply incl_tran; eauto|exact B2].
        - destruct (IH _ _ _ _ (fine_more I s _ (cap s) F (get_type_incl _ u)) E) as [A2 B2]. cbn [known] in A2.
          split; [eapply incl_tran; [apply get_type_incl|exact A2]|exact B2].
        - destruct (realize I s) as [[v s2]|] eqn:Q; [|discriminate]. destruct (S3 _ _ _ F Q) as [A B].
          destruct (IH _ _ _ _ B E) as [A2 B2]. split; [eapply incl_tran; eauto|exact B2]. }
      eapply (Y p (State [captype] captype None)); [exact Logic.I|exact R]. }
    destruct FS as [CK FS]. destruct (X _ _ _ FS Q) as (A & UK & UC). apply is_const_ok in UC.
    assert (F0 : fine I (State [captype] captype None)) by exact Logic.I.
    destruct (run_ok I (known s2) u SAT UK UC p PL _ _ _ F0 R) as (_ & _ & C). split; [exact (C A)|].
    cbn. rewrite UC in INI. destruct (SAT u captype UK) as [_ W]; [apply A, CK; now left|]. rewrite W in INI. now rewrite INI.
  Qed.

  (** * Every class is tried *)
  (** The interpretation by the classes themselves; it satisfies all constraints. *)
  Definition standard (t : cls) : interp :=
    Interp cls (fun t => t) sub t (Nat.eqb t) (fun u => Nat.eqb_eq t u).
  Theorem standard_allowed t captype ks : sub t captype = Yes -> allowed (standard t) captype ks.
  Proof. intro E. split; [|exact E]. intros x y _ _. cbn. auto. Qed.

  Section Complete.
    Variable t captype : cls.
    Hypothesis FOUND : forall c, sub t c = Yes -> c <> object -> In t (tried c).
    Hypothesis OBJECT : sub object captype = Yes -> captype <> object -> In t eager.
    Hypothesis CAP : sub t captype = Yes.
    Hypothesis EAGER : captype = object -> In t eager.
    (** subclasses of subclasses *)
    Hypothesis TRANS : forall a b c, sub a b = Yes -> sub b c = Yes -> sub a c = Yes.

    Definition good (s : state) : Prop :=
      sub t (cap s) = Yes /\ (cap s = captype \/ sub (cap s) captype = Yes) /\ (cap s = object -> In t eager) /\
      match realization s with Some u => u = t | None => True end.
    Lemma try_all_finds l : forall ks, In t l -> exists ks', try_all (standard t) l ks = (Some t, ks').
    Proof.
      induction l as [|x l IH]; intros ks IN; [destruct IN|]. cbn. destruct (Nat.eqb_spec t x) as [E|E].
      - subst x. eauto.
      - destruct IN as [E'|IN]; [congruence|]. exact (IH _ IN).
    Qed.
    Lemma realize_good s : good s -> exists s', realize (standard t) s = Some (t, s') /\ good s'.
    Proof.
      intros (A & B & C & G). unfold SymType_Model.realize. destruct (realization s) as [u|] eqn:R.
      - subst u. exists s. split; [reflexivity|]. unfold good. rewrite R. auto.
      - assert (IN : In t (if cap s =? object then eager else tried (cap s))).
        { destruct (Nat.eqb_spec (cap s) object); auto. }
        destruct (try_all_finds _ (known s) IN) as [ks E]. rewrite E. eexists. split; [reflexivity|]. unfold good. cbn. auto.
    Qed.
    Lemma good_known s ks : good s -> good (State ks (cap s) (realization s)).
    Proof. exact (fun H => H). Qed.
    Lemma is_subclass_of_good s u : good s -> exists s', is_subclass_of (standard t) s u = Some (py_issubclass sub t (SClass u), s') /\ good s'.
    Proof.
      intros G. unfold SymType_Model.is_subclass_of. cbn [known cap realization standard fn var const].
      destruct (sub t u) eqn:E; cbn [py_issubclass]; rewrite ?E.
      - destruct (negb (u =? cap s)) eqn:N; cbn [andb of_maybe]; [|eexists; split; [reflexivity|exact G]].
        destruct (sub u (cap s)) eqn:SU; cbn [andb]; eexists; (split; [reflexivity|]); try exact G.
        destruct G as (A & B & C & R). unfold good. cbn [known cap realization]. assert (SC : sub u captype = Yes) by (destruct B as [B|B]; [now rewrite <- B|eauto]).
        split; [exact E|]. split; [now right|]. split; [|exact R].
        intros EO. subst u. destruct (Nat.eq_dec captype object) as [EC|EC]; [now apply EAGER|]. now apply OBJECT.
      - rewrite andb_false_r. cbn [of_maybe]. eexists. split; [reflexivity|exact G].
      - destruct (realize_good _ (good_known s (get_type (known s) u) G)) as (s' & R & G'). rewrite R, E. eauto.
    Qed.
    Lemma is_superclass_of_good s u : good s -> exists s', is_superclass_of (standard t) s u = Some (py_issubclass sub u (SClass t), s') /\ good s'.
    Proof.
      intros G. unfold SymType_Model.is_superclass_of. cbn [known cap realization standard fn var const].
      destruct (sub u t) eqn:E; cbn [py_issubclass]; rewrite ?E; cbn [of_maybe].
      1,2: eexists; split; [reflexivity|exact G].
      destruct (realize_good _ (good_known s (get_type (known s) u) G)) as (s' & R & G'). rewrite R, E. eauto.
    Qed.
    Lemma issubclass_good p : plain_super p -> forall s, good s -> exists s', issubclass (standard t) p s = Some (py_issubclass sub t p, s') /\ good s'.
    Proof.
      induction p as [u|l|l IH|] using super_ind'; intros PS s G; try (now inversion PS).
      - now apply is_subclass_of_good.
      - inversion PS as [|l' PL]. subst l'. clear PS. cbn [SymType_Model.issubclass py_issubclass].
        revert s G. induction IH as [|p l IP IH IHl]; intros s G; [eauto|].
        inversion PL as [|p' l' PP PL' EP]. subst p' l'. clear PL.
        destruct (IP PP s G) as (s2 & E & G2). rewrite E. destruct (py_issubclass sub t p) as [[|]| |]; eauto.
    Qed.
    Lemma run_good p : plain p -> forall s, good s -> exists s', run (standard t) p s = Some (native sub t p, s') /\ good s'.
    Proof.
      induction p as [r0|q k IH|u k IH|u k IH|k IH]; intros PL s G; cbn [SymType_Model.run native plain] in *.
      - eauto.
      - destruct PL as [PS PL]. destruct (issubclass_good q PS s G) as (s2 & E & G2). rewrite E. eauto.
      - destruct (is_superclass_of_good s u G) as (s2 & E & G2). rewrite E. eauto.
      - apply IH; [apply PL|exact G].
      - destruct (realize_good s G) as (s2 & E & G2). rewrite E. eauto.
    Qed.
    (** A class that the annotation allows is reported by some path, which does what happens with
        it, if it is found below each of its superclasses (other than object, below which only int
        and str are looked for).  Missing: registered subclasses, and capping at object a class
        that is not one of the two: both refuted below. *)
    Theorem every_class_tried_partial p : plain p ->
      exists I ks, allowed I captype ks /\ path I p captype = Some (native sub t p, t, ks).
    Proof.
      intro PL. assert (G0 : good (State [captype] captype None)) by (unfold good; cbn; auto).
      destruct (run_good p PL _ G0) as (s & E & G). destruct (realize_good s G) as (s2 & R & _).
      exists (standard t), (known s2). split; [now apply standard_allowed|]. unfold SymType_Model.path. now rewrite E, R.
    Qed.
  End Complete.
End Classes.
Print Assumptions symbolic_class_partial.
Print Assumptions standard_allowed.
Print Assumptions every_class_tried_partial.

(** * Witnesses *)
(** object, int, str, bool, numbers.Integral (with int registered), Hashable (anything with a hash
    counts), a class whose subclass check fails *)
Notation t_object := 0. Notation t_int := 1. Notation t_str := 2. Notation t_bool := 3. Notation t_integral := 4.
Notation t_hashable := 5. Notation t_strange := 6.
Definition sub_ex (t u : cls) : maybe :=
  match u, t with
  | 6, _ => Exc
  | 0, _ => Yes
  | 5, _ => Yes
  | 4, (1 | 3 | 4) => Yes
  | 1, (1 | 3) => Yes
  | _, _ => if Nat.eqb t u then Yes else No
  end.
(** the map of direct subclasses, as iter_types goes through it *)
Definition tried_ex (c : cls) : list cls :=
  match c with 0 => [0; 1; 2; 3; 4; 5; 6] | 1 => [1; 3] | c => [c] end.
Definition eager_ex := [t_int; t_str].
Definition ask (s : super) : prog := IsSub s (fun a => Done (match a with Bool true => 1 | Bool false => 0 | TypeErr => 2 | Raised => 3 end)).
Example symbolic_class_case :
  let p := IsSub (STuple [SClass t_str; SClass t_int]) (fun a => IsSuper t_bool (fun b => match a, b with Bool true, Bool true => Equals t_bool (fun e => Done (if e then 3 else 2)) | _, _ => Done 0 end)) in
  plain p /\
  (exists ks, path sub_ex tried_ex t_object eager_ex (standard sub_ex t_bool) p t_int = Some (3, t_bool, ks)) /\
  native sub_ex t_bool p = 3 /\ native sub_ex t_int p = 2.
Proof.
  split; [|split; [eexists; reflexivity|split; reflexivity]].
  cbn. split; [repeat constructor|]. intros a b. destruct a as [[|]| |], b as [[|]| |]; cbn; auto.
Qed.
Example exception_case : exists ks,
  path sub_ex tried_ex t_object eager_ex (standard sub_ex t_bool) (ask (SClass t_strange)) t_int = Some (3, t_bool, ks) /\
  native sub_ex t_bool (ask (SClass t_strange)) = 3.
Proof. eexists. split; reflexivity. Qed.
(** The hypotheses of [every_class_tried_partial] hold for bool below int without the abstract
    classes. *)
Definition sub_small (t u : cls) : maybe :=
  if (u =? t_object) || (t =? u) || ((t =? t_bool) && (u =? t_int)) then Yes else No.
Example every_class_case :
  (forall c, sub_small t_bool c = Yes -> c <> t_object -> In t_bool (tried_ex c)) /\
  sub_small t_object t_int <> Yes /\ sub_small t_bool t_int = Yes /\
  (forall a b c, sub_small a b = Yes -> sub_small b c = Yes -> sub_small a c = Yes).
Proof.
  split; [|split; [discriminate|split; [reflexivity|]]].
  - intros c S O. do 4 (destruct c as [|c]; [try discriminate; try congruence; cbn; tauto|]). discriminate.
  - intros a b c. unfold sub_small.
    repeat match goal with |- context [?x =? ?y] => destruct (Nat.eqb_spec x y); subst end; cbn; congruence.
Qed.

(** isinstance(x, int | str) is false for every class that is not known ... *)
Theorem symbolic_class_union_refuted : exists I p captype r t ks,
  path sub_ex tried_ex t_object eager_ex I p captype = Some (r, t, ks) /\ allowed sub_ex I captype ks /\
  p = ask (SUnion [t_int; t_str]) /\ r = 0 /\ native sub_ex t p = 1.
Proof.
  exists (standard sub_ex t_int), (ask (SUnion [t_int; t_str])), t_object, 0, t_int. eexists.
  split; [reflexivity|]. split; [now apply standard_allowed|]. repeat split.
Qed.
(** ... and so is what Python refuses. *)
Theorem symbolic_class_other_refuted : exists I p captype r t ks,
  path sub_ex tried_ex t_object eager_ex I p captype = Some (r, t, ks) /\ allowed sub_ex I captype ks /\
  p = ask SOther /\ r = 0 /\ native sub_ex t p = 2.
Proof.
  exists (standard sub_ex t_int), (ask SOther), t_object, 0, t_int. eexists.
  split; [reflexivity|]. split; [now apply standard_allowed|]. repeat split.
Qed.
(** After isinstance(x, numbers.Integral), no path has an int: it is a registered subclass, and only
    the subclasses by inheritance are looked for. *)
Theorem registered_class_refuted : exists p captype t, plain p /\ sub_ex t captype = Yes /\ In t (tried_ex t_object) /\
  forall I ks r, path sub_ex tried_ex t_object eager_ex I p captype = Some (r, t, ks) -> ~ allowed sub_ex I captype ks.
Proof.
  exists (ask (SClass t_integral)), t_object, t_int. split; [cbn; split; [constructor|trivial]|]. split; [reflexivity|]. split; [cbn; tauto|].
  intros I ks r E [SAT INI]. pose proof E as E0. unfold path, ask in E. cbn [run issubclass] in E. unfold is_subclass_of in E. cbn in E.
  destruct (fn I (var I) (const I 4)) eqn:F; cbn in E; unfold realize in E; cbn in E.
  - destruct (is_const I 4); discriminate.
  - destruct (is_const I 1) eqn:C1; cbn in E.
    + injection E as <- <-. apply is_const_ok in C1. rewrite C1 in F.
      destruct (SAT 1 4) as [_ W]; [cbn; tauto|cbn; tauto|]. rewrite W in F. discriminate.
    + destruct (is_const I 2); discriminate.
  - destruct (is_const I 1) eqn:C1; cbn in E.
    + injection E as <- <-. apply is_const_ok in C1. rewrite C1 in F.
      destruct (SAT 1 4) as [_ W]; [cbn; tauto|cbn; tauto|]. rewrite W in F. discriminate.
    + destruct (is_const I 2); discriminate.
Qed.
(** With the annotation Type[Hashable], after issubclass(x, object), no path has bool. *)
Theorem capped_at_object_refuted : exists p captype t, plain p /\ sub_ex t captype = Yes /\ In t (tried_ex t_object) /\
  forall I ks r, path sub_ex tried_ex t_object eager_ex I p captype = Some (r, t, ks) -> ~ allowed sub_ex I captype ks.
Proof.
  exists (ask (SClass t_object)), t_hashable, t_bool. split; [cbn; split; [constructor|trivial]|]. split; [reflexivity|]. split; [cbn; tauto|].
  intros I ks r E [SAT INI]. unfold path, ask in E. cbn [run issubclass] in E. unfold is_subclass_of in E. cbn in E.
  destruct (fn I (var I) (const I 0)) eqn:F; cbn in E; unfold realize in E; cbn in E.
  - destruct (is_const I 1); [discriminate|]. cbn in E. destruct (is_const I 2); discriminate.
  - destruct (is_const I 5); discriminate.
  - destruct (is_const I 5); discriminate.
Qed.
Print Assumptions symbolic_class_union_refuted.
Print Assumptions symbolic_class_other_refuted.
Print Assumptions registered_class_refuted.
Print Assumptions capped_at_object_refuted.
