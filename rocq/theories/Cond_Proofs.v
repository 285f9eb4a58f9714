(** Proofs about conditions *)
From Coq Require Import String List Bool Lia.
From Verif Require Import Cond_Model Cond_Spec.
Import ListNotations.
Open Scope string_scope.

Section Proofs.
  Variables (Val St Exc : Type).
  Notation expr := (expr Val). Notation names := (names Val). Notation M := (M St Exc).
  Variable true_val : Val.
  Variable name_error : string -> Exc.
  Variable call : Val -> list Val -> list (string * Val) -> M Val.
  Variable truth : Val -> M bool.
  Variable items : Val -> M (list Val).
  Variable pack : list Val -> Val.
  Variable oper : string -> list Val -> M Val.
  Notation transform := (transform Val true_val).
  Notation eval := (eval Val St Exc name_error call truth items pack oper).
  Notation means := (means Val St Exc true_val name_error call truth items pack oper).
  Notation all_mean := (all_mean Val St Exc true_val name_error call truth items pack oper).
  Notation each_means := (each_means Val St Exc true_val name_error call truth items pack oper).

  Lemma expr_ind' : forall P : expr -> Prop,
    (forall x, P (Name _ x)) -> (forall v, P (Const _ v)) ->
    (forall f args kw, P f -> Forall P args -> Forall P (map snd kw) -> P (Call _ f args kw)) ->
    (forall c t e, P c -> P t -> P e -> P (IfExp _ c t e)) ->
    (forall a b, P a -> P b -> P (And _ a b)) -> (forall a b, P a -> P b -> P (Or _ a b)) ->
    (forall x o b, P o -> P b -> P (Each _ x o b)) -> (forall o args, Forall P args -> P (Op _ o args)) -> forall e, P e.
  Proof.
    intros P HN HC HL HI HA HO HE HP. fix IH 1.
    assert (L : forall l : list expr, Forall P l) by (fix L 1; destruct l; constructor; [apply IH|apply L]).
    assert (K : forall l : list (string * expr), Forall P (map snd l)) by (fix K 1; destruct l as [|[? ?] l]; cbn; constructor; [apply IH|apply K]).
    destruct e; [apply HN|apply HC|apply HL; [apply IH|apply L|apply K]|apply HI; apply IH|apply HA; apply IH|apply HO; apply IH|apply HE; apply IH|apply HP, L].
  Qed.

  Definition keyword (p : string * expr) : option (string * expr) := match transform (snd p) with Some e => Some (fst p, e) | None => None end.
  Lemma all_some_spec : forall A B (f : A -> option B) l r, all_some (map f l) = Some r <-> Forall2 (fun a b => f a = Some b) l r.
  Proof.
    induction l as [|a l IH]; intro r; cbn [map all_some]; [split; intro H; [inversion H; constructor|inversion H; reflexivity]|]. split.
    - intro H. destruct (f a) eqn:E; [|discriminate]. destruct (all_some (map f l)) eqn:E2; [|discriminate]. inversion H; subst. constructor; [assumption|now apply IH].
    - intro H. inversion H as [|? b ? r' E R]; subst. apply IH in R. now rewrite E, R.
  Qed.
  Lemma keyword_list : forall kw kw', Forall2 (fun a b => keyword a = Some b) kw kw' -> map fst kw' = map fst kw /\ Forall2 (fun a b => transform a = Some b) (map snd kw) (map snd kw').
  Proof.
    induction 1 as [|[k e] [k' e'] kw kw' H _ [IH1 IH2]]; [split; [reflexivity|constructor]|]. unfold keyword in H. cbn [fst snd map] in *.
    destruct (transform e) eqn:E; [|discriminate]. inversion H; subst. split; [now f_equal|now constructor].
  Qed.
  Lemma keyword_list' : forall kw l, Forall2 (fun a b => transform a = Some b) (map snd kw) l -> exists kw', all_some (map keyword kw) = Some kw'.
  Proof.
    induction kw as [|[k e] kw IH]; intros l H; [now exists []|]. cbn [map snd] in H. inversion H as [|? e' ? l' E R]; subst.
    destruct (IH _ R) as [kw' K]. exists ((k, e') :: kw'). cbn [map all_some]. unfold keyword at 1. cbn [fst snd]. now rewrite E, K.
  Qed.

  (** What becomes of a call *)
  Lemma transform_call : forall f args kw e', transform (Call _ f args kw) = Some e' ->
    exists f' args' kw', transform f = Some f' /\ Forall2 (fun a b => transform a = Some b) args args' /\
      map fst kw' = map fst kw /\ Forall2 (fun a b => transform a = Some b) (map snd kw) (map snd kw') /\
      ((f = Name _ "implies" /\ exists c i, args' = [c; i] /\ e' = IfExp _ c i (Const _ true_val)) \/
       (f <> Name _ "implies" /\ e' = Call _ f' args' kw')).
  Proof.
    intros f args kw e' H. cbn [Cond_Model.transform] in H. fold keyword in H.
    destruct (transform f) as [f'|] eqn:Ef; [|discriminate]. destruct (all_some (map transform args)) as [args'|] eqn:Ea; [|discriminate].
    destruct (all_some (map keyword kw)) as [kw'|] eqn:Ek; [|discriminate].
    apply all_some_spec in Ea, Ek. apply keyword_list in Ek. destruct Ek as [K1 K2]. exists f', args', kw'. do 4 (split; [assumption || reflexivity|]).
    assert (NI : f = Name _ "implies" <-> f' = Name _ "implies").
    { split; [intros ->; now inversion Ef|]. intros ->. destruct f; cbn [Cond_Model.transform] in Ef;
        repeat match type of Ef with context [match ?x with _ => _ end] => destruct x; try discriminate end; inversion Ef; subst; try reflexivity. all: try congruence. }
    destruct f' as [x| | | | | | |];
      try (right; split; [intro Q; apply NI in Q; discriminate|now inversion H]).
    destruct (String.eqb x "implies") eqn:X.
    - apply String.eqb_eq in X. subst. left. split; [now apply NI|]. destruct args' as [|c [|i [|]]]; try discriminate. inversion H. eauto.
    - right. split; [intro Q; apply NI in Q; inversion Q; subst; discriminate|now inversion H].
  Qed.

  (** Evaluating a list, and keyword arguments *)
  Lemma seq_keywords : forall env kw s, seq _ _ (map (fun p : string * expr => bindM _ _ (eval env (snd p)) (fun v => ret _ _ (fst p, v))) kw) s
    = match seq _ _ (map (eval env) (map snd kw)) s with (inl ws, s') => (inl (combine (map fst kw) ws), s') | (inr e, s') => (inr e, s') end.
  Proof.
    induction kw as [|[k e] kw IH]; intro s; [reflexivity|]. cbn [map fst snd seq]. unfold bindM, ret.
    destruct (eval env e s) as [[v|x] s1]; [|reflexivity]. rewrite IH. destruct (seq _ _ _ s1) as [[ws|x] s2]; reflexivity.
  Qed.

  Lemma bind_eq : forall A B (m : M A) (k : A -> M B) s, bindM _ _ m k s = match m s with (inl a, s') => k a s' | (inr e, s') => (inr e, s') end.
  Proof. reflexivity. Qed.
  Definition same (a b : names) := forall y, a y = b y.
  Lemma same_bind : forall (a b : names) x v, same a b -> same (merge _ a (only _ x v)) (fun y => if String.eqb y x then Some v else b y).
  Proof. intros a b x v H y. unfold merge, only. destruct (String.eqb y x); [reflexivity|apply H]. Qed.

  Lemma eval_means : forall e e', transform e = Some e' -> forall env env', same env' env -> forall s, means env e s (fst (eval env' e' s)) (snd (eval env' e' s)).
  Proof.
    assert (G : forall (e e' : expr), (forall env env', same env' env -> forall s, means env e s (fst (eval env' e' s)) (snd (eval env' e' s))) ->
       forall env env' s r s', same env' env -> eval env' e' s = (r, s') -> means env e s r s').
    { intros e e' H env env' s r s' S E. pose proof (H env env' S s) as Q. now rewrite E in Q. }
    assert (LS : forall l l' env env', Forall2 (fun a b => transform a = Some b) l l' -> same env' env ->
       Forall (fun e => forall e', transform e = Some e' -> forall env env', same env' env -> forall s, means env e s (fst (eval env' e' s)) (snd (eval env' e' s))) l ->
       forall s r s', seq _ _ (map (eval env') l') s = (r, s') -> all_mean env l s r s').
    { intros l l' env env' F S. induction F as [|a b l l' E F IH]; intros A s r s' H; cbn [map seq] in H.
      - inversion H; subst. constructor.
      - inversion A as [|? ? Ha Al]; subst. unfold bindM, ret in H. destruct (eval env' b s) as [[v|x] s1] eqn:E1.
        + assert (M1 : means env a s (inl v) s1) by exact (G _ _ (Ha _ E) _ _ _ _ _ S E1).
          destruct (seq _ _ _ s1) as [[vs|x] s2] eqn:E2; inversion H; subst.
          * eapply all_cons; [exact M1|]. exact (IH Al _ _ _ E2).
          * eapply all_rest; [exact M1|]. exact (IH Al _ _ _ E2).
        + inversion H; subst. apply all_first. exact (G _ _ (Ha _ E) _ _ _ _ _ S E1). }
    induction e as [x|v|f args kw IHf IHa IHk|c t e IHc IHt IHe|a b IHa IHb|a b IHa IHb|x o b IHo IHb|o args IHa] using expr_ind'; intros e' T env env' S s.
    - inversion T; subst. cbn [Cond_Model.eval]. rewrite S. destruct (env x) eqn:E; cbn; now constructor.
    - inversion T; subst. cbn. constructor.
    - destruct (transform_call _ _ _ _ T) as (f' & args' & kw' & Tf & Ta & Kf & Tk & [[-> (c & i & -> & ->)]|[N ->]]).
      + inversion Ta as [|a ? la ? Tc Ta2]; subst. inversion Ta2 as [|b ? lb ? Ti Ta3]; subst. inversion Ta3; subst.
        inversion IHa as [|? ? Ia IHa2]; subst. inversion IHa2 as [|? ? Ib _]; subst. cbn [Cond_Model.eval]. unfold bindM.
        destruct (eval env' c s) as [[v|x] s1] eqn:E1; pose proof (G _ _ (Ia _ Tc) _ _ _ _ _ S E1) as M1; [|now apply m_implies_exc].
        destruct (truth v s1) as [[[|]|x] s2] eqn:E2.
        * eapply m_implies_true; [exact M1|eassumption|]. exact (Ib _ Ti _ _ S s2).
        * eapply m_implies_false; [exact M1|eassumption].
        * eapply m_implies_truth_exc; [exact M1|eassumption].
      + cbn [Cond_Model.eval]. rewrite bind_eq. destruct (eval env' f' s) as [[g|x] s1] eqn:E1; pose proof (G _ _ (IHf _ Tf) _ _ _ _ _ S E1) as M1; [|apply m_call_f; assumption].
        rewrite bind_eq. destruct (seq _ _ (map (eval env') args') s1) as [[vs|x] s2] eqn:E2; pose proof (LS _ _ _ _ Ta S IHa _ _ _ E2) as M2; [|eapply m_call_args; eassumption].
        rewrite bind_eq, seq_keywords. destruct (seq _ _ (map (eval env') (map snd kw')) s2) as [[ws|x] s3] eqn:E3; pose proof (LS _ _ _ _ Tk S IHk _ _ _ E3) as M3; [|eapply m_call_kw; eassumption].
        eapply m_call; try eassumption. rewrite Kf. apply surjective_pairing.
    - cbn [Cond_Model.transform] in T. destruct (transform c) as [c'|] eqn:Tc; [|discriminate]. destruct (transform t) as [t'|] eqn:Tt; [|discriminate].
      destruct (transform e) as [e2|] eqn:Te; [|discriminate]. inversion T; subst. cbn [Cond_Model.eval]. unfold bindM.
      destruct (eval env' c' s) as [[v|x] s1] eqn:E1; pose proof (G _ _ (IHc _ eq_refl) _ _ _ _ _ S E1) as M1; [|now apply m_if_exc].
      destruct (truth v s1) as [[[|]|x] s2] eqn:E2.
      + eapply (m_if _ _ _ _ _ _ _ _ _ _ env c t e s v s1 true s2); [exact M1|eassumption|]. exact (IHt _ eq_refl _ _ S s2).
      + eapply (m_if _ _ _ _ _ _ _ _ _ _ env c t e s v s1 false s2); [exact M1|eassumption|]. exact (IHe _ eq_refl _ _ S s2).
      + eapply m_if_truth; [exact M1|eassumption].
    - cbn [Cond_Model.transform] in T. destruct (transform a) as [a'|] eqn:Ta; [|discriminate]. destruct (transform b) as [b'|] eqn:Tb; [|discriminate].
      inversion T; subst. cbn [Cond_Model.eval]. unfold bindM.
      destruct (eval env' a' s) as [[v|x] s1] eqn:E1; pose proof (G _ _ (IHa _ eq_refl) _ _ _ _ _ S E1) as M1; [|now apply m_and_exc].
      destruct (truth v s1) as [[[|]|x] s2] eqn:E2.
      + eapply m_and_true; [exact M1|eassumption|]. exact (IHb _ eq_refl _ _ S s2).
      + eapply m_and_false; [exact M1|eassumption].
      + eapply m_and_truth; [exact M1|eassumption].
    - cbn [Cond_Model.transform] in T. destruct (transform a) as [a'|] eqn:Ta; [|discriminate]. destruct (transform b) as [b'|] eqn:Tb; [|discriminate].
      inversion T; subst. cbn [Cond_Model.eval]. unfold bindM.
      destruct (eval env' a' s) as [[v|x] s1] eqn:E1; pose proof (G _ _ (IHa _ eq_refl) _ _ _ _ _ S E1) as M1; [|now apply m_or_exc].
      destruct (truth v s1) as [[[|]|x] s2] eqn:E2.
      + eapply m_or_true; [exact M1|eassumption].
      + eapply m_or_false; [exact M1|eassumption|]. exact (IHb _ eq_refl _ _ S s2).
      + eapply m_or_truth; [exact M1|eassumption].
    - cbn [Cond_Model.transform] in T. destruct (transform o) as [o'|] eqn:To; [|discriminate]. destruct (transform b) as [b'|] eqn:Tb; [|discriminate].
      inversion T; subst. cbn [Cond_Model.eval]. rewrite bind_eq.
      destruct (eval env' o' s) as [[v|y] s1] eqn:E1; pose proof (G _ _ (IHo _ eq_refl) _ _ _ _ _ S E1) as M1; [|now apply m_each_exc].
      rewrite bind_eq. destruct (items v s1) as [[l|y] s2] eqn:E2; [|eapply m_each_items; [exact M1|eassumption]].
      assert (L : forall l s r s', seq _ _ (map (fun v => eval (merge _ env' (only _ x v)) b') l) s = (r, s') -> each_means env x b l s r s').
      { clear - G IHb S. induction l as [|w l IH]; intros s r s' H; cbn [map seq] in H; [inversion H; subst; constructor|].
        unfold bindM, ret in H. destruct (eval _ b' s) as [[u|y] s1] eqn:E1; pose proof (G _ _ (IHb _ eq_refl) _ _ _ _ _ (same_bind _ _ x w S) E1) as M1.
        - destruct (seq _ _ _ s1) as [[us|y] s2] eqn:E2; inversion H; subst; [eapply each_cons|eapply each_rest]; eauto.
        - inversion H; subst. now apply each_first. }
      unfold bindM, ret. destruct (seq _ _ _ s2) as [[rs|y] s3] eqn:E3; pose proof (L _ _ _ _ E3) as M3; cbn [fst snd].
      + eapply m_each; [exact M1|eassumption|exact M3].
      + eapply m_each_body; [exact M1|eassumption|exact M3].
    - cbn [Cond_Model.transform] in T. destruct (all_some (map transform args)) as [args'|] eqn:Ta; [|discriminate]. inversion T; subst. apply all_some_spec in Ta.
      cbn [Cond_Model.eval]. unfold bindM. destruct (seq _ _ (map (eval env') args') s) as [[vs|x] s1] eqn:E1; pose proof (LS _ _ _ _ Ta S IHa _ _ _ E1) as M1.
      + eapply m_op; [exact M1|]. apply surjective_pairing.
      + now apply m_op_exc.
  Qed.

  Scheme means_mut := Induction for Cond_Spec.means Sort Prop with all_mut := Induction for Cond_Spec.all_mean Sort Prop with each_mut := Induction for Cond_Spec.each_means Sort Prop.


  Lemma means_eval : forall env e s r s', means env e s r s' -> forall env', same env' env -> forall e', transform e = Some e' -> eval env' e' s = (r, s').
  Proof.
    set (P := fun env e s r s' (_ : means env e s r s') => forall env', same env' env -> forall e', transform e = Some e' -> eval env' e' s = (r, s')).
    set (PL := fun env l s r s' (_ : all_mean env l s r s') => forall env', same env' env -> forall l', Forall2 (fun a b => transform a = Some b) l l' ->
       seq _ _ (map (eval env') l') s = (r, s')).
    set (PE := fun env x b l s r s' (_ : each_means env x b l s r s') => forall env', same env' env -> forall b', transform b = Some b' ->
       seq _ _ (map (fun v => eval (merge _ env' (only _ x v)) b') l) s = (r, s')).
    intros env e s r s' H. 
    refine (means_mut _ _ _ _ _ _ _ _ _ _ P PL PE _ _ _ _ _ _ _ _ _ _ _ _ _ _ _ _ _ _ _ _ _ _ _ _ _ _ _ _ _ _ _ _ _ _ _ _ env e s r s' H);
      clear env e s r s' H; unfold P, PL, PE; clear P PL PE.
    all: try (intros; match goal with T : transform (Call _ (Name _ "implies") _ _) = Some _ |- _ =>
       destruct (transform_call _ _ _ _ T) as (f' & args' & kw' & Tf & Ta & Kf & Tk & [[_ (c' & i' & -> & ->)]|[N _]]); [|congruence];
       inversion Ta as [|? ? ? ? Tc Ta2]; subst; inversion Ta2 as [|? ? ? ? Ti Ta3]; subst; cbn [Cond_Model.eval]; unfold bindM;
       repeat (match goal with IH : forall env', same env' _ -> forall e', transform _ = Some e' -> eval env' e' _ = _ |- _ => erewrite IH by eassumption; clear IH | E : truth _ _ = _ |- _ => rewrite E; clear E end); reflexivity end).
    all: try (intros; match goal with N : _ <> Name _ "implies", T : transform (Call _ _ _ _) = Some _ |- _ =>
       destruct (transform_call _ _ _ _ T) as (f' & args' & kw' & Tf & Ta & Kf & Tk & [[Q _]|[_ ->]]); [congruence|];
       cbn [Cond_Model.eval]; rewrite ?bind_eq;
       erewrite H by eassumption; rewrite ?bind_eq;
       try (erewrite H0 by eassumption; rewrite ?bind_eq, ?seq_keywords);
       try (erewrite H1 by eassumption); rewrite ?Kf; assumption || reflexivity end).
    all: try (intros; match goal with T : transform (Each _ _ _ _) = Some _ |- _ => fail 1 | _ => idtac end;
       match goal with T : transform _ = Some _ |- _ => cbn [Cond_Model.transform] in T end;
       repeat match goal with T : match transform ?a with _ => _ end = Some _ |- _ => destruct (transform a) eqn:?; [|discriminate] end;
       match goal with T : Some _ = Some ?x |- _ => inversion T; subst; clear T end;
       cbn [Cond_Model.eval]; unfold bindM;
       repeat (match goal with
         | IH : forall env', same env' _ -> forall e', Some _ = Some e' -> eval env' e' _ = _ |- _ => rewrite (IH _ ltac:(eassumption) _ eq_refl); clear IH
         | IH : forall env', same env' _ -> forall e', transform _ = Some e' -> eval env' e' _ = _ |- _ => erewrite IH by eassumption; clear IH
         | E : truth _ _ = _ |- _ => rewrite E; clear E end); reflexivity).
    - intros env x v s E env' S e' T. inversion T; subst. cbn [Cond_Model.eval]. now rewrite S, E.
    - intros env x s E env' S e' T. inversion T; subst. cbn [Cond_Model.eval]. now rewrite S, E.
    - intros env c t e s v s1 b s2 r s3 _ IH1 E _ IH2 env' S e' T. cbn [Cond_Model.transform] in T.
      destruct (transform c) as [c'|] eqn:Tc; [|discriminate]. destruct (transform t) as [t'|] eqn:Tt; [|discriminate]. destruct (transform e) as [f'|] eqn:Te; [|discriminate].
      inversion T; subst. cbn [Cond_Model.eval]. unfold bindM. rewrite (IH1 _ S _ eq_refl), E. destruct b; now apply IH2.
    - intros env x o b s e s' _ IH env' S e' T. cbn [Cond_Model.transform] in T.
      destruct (transform o) as [o'|] eqn:To; [|discriminate]. destruct (transform b) as [b'|] eqn:Tb; [|discriminate].
      inversion T; subst. cbn [Cond_Model.eval]. unfold bindM. now rewrite (IH _ S _ eq_refl).
    - intros env x o b s v s1 e s2 _ IH E env' S e' T. cbn [Cond_Model.transform] in T.
      destruct (transform o) as [o'|] eqn:To; [|discriminate]. destruct (transform b) as [b'|] eqn:Tb; [|discriminate].
      inversion T; subst. cbn [Cond_Model.eval]. unfold bindM. now rewrite (IH _ S _ eq_refl), E.
    - intros env x o b s v s1 l s2 e s3 _ IH E _ IH2 env' S e' T. cbn [Cond_Model.transform] in T.
      destruct (transform o) as [o'|] eqn:To; [|discriminate]. destruct (transform b) as [b'|] eqn:Tb; [|discriminate].
      inversion T; subst. cbn [Cond_Model.eval]. rewrite bind_eq, (IH _ S _ eq_refl), bind_eq, E, bind_eq, (IH2 _ S _ eq_refl). reflexivity.
    - intros env x o b s v s1 l s2 e s3 _ IH E _ IH2 env' S e' T. cbn [Cond_Model.transform] in T.
      destruct (transform o) as [o'|] eqn:To; [|discriminate]. destruct (transform b) as [b'|] eqn:Tb; [|discriminate].
      inversion T; subst. cbn [Cond_Model.eval]. rewrite bind_eq, (IH _ S _ eq_refl), bind_eq, E, bind_eq, (IH2 _ S _ eq_refl). reflexivity.
    - intros env o args s e s' _ IH env' S e' T. cbn [Cond_Model.transform] in T. destruct (all_some _) as [args'|] eqn:Ta; [|discriminate]. inversion T; subst. apply all_some_spec in Ta.
      cbn [Cond_Model.eval]. rewrite bind_eq, (IH _ S _ Ta). reflexivity.
    - intros env o args s vs s1 r s2 _ IH E env' S e' T. cbn [Cond_Model.transform] in T. destruct (all_some _) as [args'|] eqn:Ta; [|discriminate]. inversion T; subst. apply all_some_spec in Ta.
      cbn [Cond_Model.eval]. rewrite bind_eq, (IH _ S _ Ta). exact E.
    - intros env s env' S l' F. inversion F; subst. reflexivity.
    - intros env e l s x s' _ IH env' S l' F. inversion F as [|? b ? l2 E F2]; subst. cbn [map seq]. rewrite bind_eq, (IH _ S _ E). reflexivity.
    - intros env e l s v s1 x s2 _ IH _ IH2 env' S l' F. inversion F as [|? b ? l2 E F2]; subst. cbn [map seq].
      rewrite bind_eq, (IH _ S _ E), bind_eq, (IH2 _ S _ F2). reflexivity.
    - intros env e l s v s1 x s2 _ IH _ IH2 env' S l' F. inversion F as [|? b ? l2 E F2]; subst. cbn [map seq].
      rewrite bind_eq, (IH _ S _ E), bind_eq, (IH2 _ S _ F2). reflexivity.
    - intros env x b s env' S b' T. reflexivity.
    - intros env x b v l s e s' _ IH env' S b' T. cbn [map seq]. rewrite bind_eq, (IH _ (same_bind _ _ x v S) _ T). reflexivity.
    - intros env x b v l s r s1 e s2 _ IH _ IH2 env' S b' T. cbn [map seq]. rewrite bind_eq, (IH _ (same_bind _ _ x v S) _ T), bind_eq, (IH2 _ S _ T). reflexivity.
    - intros env x b v l s r s1 e s2 _ IH _ IH2 env' S b' T. cbn [map seq]. rewrite bind_eq, (IH _ (same_bind _ _ x v S) _ T), bind_eq, (IH2 _ S _ T). reflexivity.
  Qed.

  Theorem transform_means : forall e e', transform e = Some e' -> forall env env', same env' env -> forall s r s', eval env' e' s = (r, s') <-> means env e s r s'.
  Proof.
    intros e e' T env env' S s r s'. split; [|intro H; now apply (means_eval _ _ _ _ _ H)].
    intro E. pose proof (eval_means e e' T env env' S s) as H. now rewrite E in H.
  Qed.

  Lemma forall2_length : forall A B (R : A -> B -> Prop) a b, Forall2 R a b -> length a = length b.
  Proof. induction 1; cbn; lia. Qed.
  Lemma all_some_exists : forall A B (f : A -> option B) l, (exists r, all_some (map f l) = Some r) <-> Forall (fun a => exists b, f a = Some b) l.
  Proof.
    induction l as [|a l IH]; cbn [map all_some]; [split; [constructor|now exists []]|]. split.
    - intros [r H]. destruct (f a) eqn:E; [|discriminate]. destruct (all_some (map f l)) eqn:E2; [|discriminate]. constructor; [eauto|]. apply IH. eauto.
    - intro H. inversion H as [|? ? [b E] F]; subst. apply IH in F. destruct F as [r F]. rewrite E, F. eauto.
  Qed.
  Theorem transform_defined : forall e, (exists e', transform e = Some e') <-> implies_ok Val false e.
  Proof.
    induction e as [x|v|f args kw IHf IHa IHk|c t e IHc IHt IHe|a b IHa IHb|a b IHa IHb|x o b IHo IHb|o args IHa] using expr_ind'.
    - split; [constructor|eexists; reflexivity].
    - split; [constructor|eexists; reflexivity].
    - assert (L : forall l, Forall (fun e => (exists e', transform e = Some e') <-> implies_ok Val false e) l -> Forall (fun e => exists e', transform e = Some e') l <-> Forall (implies_ok Val false) l).
      { intros l F. induction F as [|y l H _ IH]; [split; constructor|]. rewrite !Forall_cons_iff. tauto. }
      split.
      + intros [e' T]. destruct (transform_call _ _ _ _ T) as (f' & args' & kw' & Tf & Ta & Kf & Tk & C). constructor.
        * intros ->. destruct C as [[_ (c & i & -> & _)]|[N _]]; [|congruence]. apply forall2_length in Ta. split; [exact Ta|discriminate].
        * apply IHf. eauto.
        * apply L; [assumption|]. apply all_some_exists. exists args'. now apply all_some_spec.
        * apply L; [assumption|]. apply all_some_exists. exists (map snd kw'). now apply all_some_spec.
      + intro H. inversion H as [| |? ? ? N Hf Ha Hk| | | | |]; subst. apply IHf in Hf. destruct Hf as [f' Tf].
        apply L, all_some_exists in Ha; [|assumption]. destruct Ha as [args' Ta]. apply L, all_some_exists in Hk; [|assumption]. destruct Hk as [ks Tk].
        apply all_some_spec, keyword_list' in Tk. destruct Tk as [kw' Tk]. cbn [Cond_Model.transform]. fold keyword. rewrite Tf, Ta, Tk.
        destruct f' as [x| | | | | | |]; try (eexists; reflexivity). destruct (String.eqb x "implies") eqn:X; [|eexists; reflexivity].
        apply String.eqb_eq in X. subst x.
        assert (Q : f = Name _ "implies").
        { destruct f; cbn [Cond_Model.transform] in Tf; repeat match type of Tf with context [match ?x with _ => _ end] => destruct x; try discriminate end; inversion Tf; subst; try reflexivity; congruence. }
        destruct (N Q) as [N' _]. clear N. rename N' into N. apply all_some_spec, forall2_length in Ta. rewrite N in Ta. destruct args' as [|? [|? [|]]]; try discriminate Ta. eexists; reflexivity.
    - cbn [Cond_Model.transform]. split.
      + intros [e' T]. destruct (transform c); [|discriminate]. destruct (transform t); [|discriminate]. destruct (transform e); [|discriminate].
        constructor; [apply IHc|apply IHt|apply IHe]; eauto.
      + intro H. inversion H; subst. destruct (proj2 IHc ltac:(assumption)) as [? ->]. destruct (proj2 IHt ltac:(assumption)) as [? ->]. destruct (proj2 IHe ltac:(assumption)) as [? ->]. eexists; reflexivity.
    - cbn [Cond_Model.transform]. split.
      + intros [e' T]. destruct (transform a); [|discriminate]. destruct (transform b); [|discriminate]. constructor; [apply IHa|apply IHb]; eauto.
      + intro H. inversion H; subst. destruct (proj2 IHa ltac:(assumption)) as [? ->]. destruct (proj2 IHb ltac:(assumption)) as [? ->]. eexists; reflexivity.
    - cbn [Cond_Model.transform]. split.
      + intros [e' T]. destruct (transform a); [|discriminate]. destruct (transform b); [|discriminate]. constructor; [apply IHa|apply IHb]; eauto.
      + intro H. inversion H; subst. destruct (proj2 IHa ltac:(assumption)) as [? ->]. destruct (proj2 IHb ltac:(assumption)) as [? ->]. eexists; reflexivity.
    - cbn [Cond_Model.transform]. split.
      + intros [e' T]. destruct (transform o); [|discriminate]. destruct (transform b); [|discriminate]. constructor; [apply IHo|apply IHb]; eauto.
      + intro H. inversion H; subst. destruct (proj2 IHo ltac:(assumption)) as [? ->]. destruct (proj2 IHb ltac:(assumption)) as [? ->]. eexists; reflexivity.
    - cbn [Cond_Model.transform].
      assert (L : Forall (fun e => exists e', transform e = Some e') args <-> Forall (implies_ok Val false) args) by (induction IHa as [|y l H _ IH]; [split; constructor|rewrite !Forall_cons_iff; tauto]).
      split.
      + intros [e' T]. destruct (all_some _) eqn:E; [|discriminate]. constructor. apply L, all_some_exists. eauto.
      + intro H. inversion H; subst. apply L, all_some_exists in H1. destruct H1 as [r ->]. eexists; reflexivity.
  Qed.

  (** * Names *)
  Lemma post_lookup : forall (holder : names -> Val) f args original result x,
    merge _ (builtins _ f) (merge _ (fn_globals _ f) (post_names _ holder f args original result)) x =
    if String.eqb x (fname _ f) then Some (self_val _ f)
    else match special _ holder original (Some result) x with
         | Some v => Some v
         | None => first_of _ [args x; fn_globals _ f x; builtins _ f x]
         end.
  Proof.
    intros. unfold post_names, merge, only, special, first_of. cbn [fold_right].
    destruct (String.eqb x (fname _ f)); [reflexivity|]. destruct (String.eqb x "__old__"); [reflexivity|].
    destruct (String.eqb x "_"), (String.eqb x "__return__"); cbn [orb]; try reflexivity.
    destruct (args x), (fn_globals _ f x), (builtins _ f x); reflexivity.
  Qed.
  Lemma pre_lookup : forall (holder : names -> Val) f args x,
    merge _ (builtins _ f) (merge _ (fn_globals _ f) (pre_names _ holder args)) x =
    match args x with
    | Some v => Some v
    | None => match special _ holder args None x with Some v => Some v | None => first_of _ [fn_globals _ f x; builtins _ f x] end
    end.
  Proof.
    intros. unfold pre_names, merge, only, special, first_of. cbn [fold_right].
    destruct (args x); [reflexivity|]. destruct (String.eqb x "__old__"); [reflexivity|].
    destruct (String.eqb x "_"), (String.eqb x "__return__"); cbn [orb]; destruct (fn_globals _ f x), (builtins _ f x); reflexivity.
  Qed.
  Lemma globals_lookup : forall (f : func Val) x, (of_list _ (nonlocals _ f) x = None \/ globals _ f x = None) ->
    fn_globals _ f x = first_of _ [of_list _ (nonlocals _ f) x; globals _ f x].
  Proof.
    intros f x H. unfold fn_globals, first_of, merge. cbn [fold_right]. destruct (nonlocals _ f) eqn:E; [cbn [of_list find]; now destruct (globals _ f x)|].
    destruct H as [H|H]; rewrite H; [now destruct (globals _ f x)|]. now destruct (of_list _ (p :: l) x).
  Qed.
End Proofs.
