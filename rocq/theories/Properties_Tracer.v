(** C141 and C142: tracing modules and the switching of tracing.  Model: [Tracer_Model]; spec: [Tracer_Spec]. *)
From Coq Require Import ZArith List Bool Lia.
Import ListNotations.
From Verif Require Import Tracer_Model Tracer_Spec.
Open Scope Z_scope.

Fixpoint play {S A : Type} (step : S -> action -> A * S) (s : S) (h : list action) : list A * S :=
  match h with [] => ([], s) | a :: h => let '(x, s) := step s a in let '(l, s) := play step s h in (x :: l, s) end.

Definition column (ts : list table) (o : Z) : list (option nat) := map (fun t => t o) ts.
Definition holds (ts : list table) (o : Z) (hs : list nat) : Prop := exists k, column ts o = map Some hs ++ repeat None k.

Lemma put_same ts op m : forall hs, holds ts op hs -> holds (put ts op m) op (hs ++ [m]).
Proof.
  induction ts as [|t ts IH]; intros hs [k E].
  - destruct hs; [|discriminate]. exists 0%nat. cbn. unfold set. now rewrite Z.eqb_refl.
  - cbn [put]. cbn [column map] in E. destruct hs as [|h hs].
    + destruct k as [|k]; [discriminate|]. cbn in E. injection E as E1 E2. rewrite E1. exists k. cbn [column map]. unfold set at 1. rewrite Z.eqb_refl. cbn. f_equal. exact E2.
    + cbn in E. injection E as E1 E2. rewrite E1. destruct (IH hs) as [k' E']; [now exists k|]. exists k'. cbn [column map app]. rewrite E1. f_equal. exact E'.
Qed.
Lemma put_other ts op m o : o <> op -> exists j, column (put ts op m) o = column ts o ++ repeat None j.
Proof.
  intros N. induction ts as [|t ts [j IH]]; cbn [put].
  - exists 1%nat. cbn. unfold set. destruct (Z.eqb_spec o op); [congruence|reflexivity].
  - destruct (t op) eqn:E.
    + exists j. cbn [column map app]. f_equal. exact IH.
    + exists 0%nat. cbn [column map app repeat]. rewrite app_nil_r. unfold set at 1. destruct (Z.eqb_spec o op); [congruence|reflexivity].
Qed.
Lemma put_other_holds ts op m o hs : o <> op -> holds ts o hs -> holds (put ts op m) o hs.
Proof.
  intros N [k E]. destruct (put_other ts op m o N) as [j E']. exists (k + j)%nat. rewrite E', E, repeat_app, app_assoc. reflexivity.
Qed.
Definition in_range (o : Z) : bool := (0 <=? o) && (o <? 256).
Lemma range_cases o : ((o <? 0) || (256 <=? o)) = negb (in_range o).
Proof. unfold in_range. destruct (Z.ltb_spec o 0), (Z.leb_spec 256 o), (Z.leb_spec 0 o), (Z.ltb_spec o 256); try lia; reflexivity. Qed.

Section M.
Variable wanted : nat -> option (list Z).
Variable tracable : Z -> bool.
Notation add_opcode := (add_opcode tracable).
Notation push_module := (push_module wanted tracable).
Notation pop_module := (pop_module tracable).
Notation wants := (wants wanted).

Lemma add_holds m ops : NoDup ops -> forall ts b o hs, holds ts o hs ->
  holds (fst (fold_left (add_opcode m) ops (ts, b))) o (if in_range o && existsb (Z.eqb o) ops then hs ++ [m] else hs).
Proof.
  induction 1 as [|op ops NI _ IH]; intros ts b o hs H; cbn [fold_left existsb].
  - now rewrite andb_false_r.
  - unfold Tracer_Model.add_opcode at 2. rewrite range_cases. cbn [fst snd]. destruct (in_range op) eqn:R; cbn [negb].
    + destruct (Z.eqb_spec o op) as [->|N].
      * rewrite R. cbn [andb orb]. specialize (IH (put ts op m) (if tracable op then b else true) op (hs ++ [m]) (put_same ts op m hs H)).
        assert (E : existsb (Z.eqb op) ops = false).
        { destruct (existsb (Z.eqb op) ops) eqn:X; [|reflexivity]. apply existsb_exists in X as (y & Y1 & Y2). apply Z.eqb_eq in Y2. now subst. }
        rewrite E, andb_false_r in IH. exact IH.
      * cbn [orb]. apply IH. now apply put_other_holds.
    + destruct (Z.eqb_spec o op) as [->|N]; [|cbn [orb]; now apply IH]. rewrite R. cbn [andb]. specialize (IH ts b op hs H). now rewrite R in IH.
Qed.
Lemma add_flag m ops : forall ts b, snd (fold_left (add_opcode m) ops (ts, b)) = true <->
  b = true \/ exists op, In op ops /\ in_range op = true /\ tracable op = false.
Proof.
  induction ops as [|op ops IH]; intros ts b; cbn [fold_left].
  - split; [now left|intros [H|(op & [] & _)]; exact H].
  - unfold Tracer_Model.add_opcode at 2. rewrite range_cases. cbn [fst snd]. destruct (in_range op) eqn:R; cbn [negb]; rewrite IH.
    + destruct (tracable op) eqn:T; split.
      * intros [H|(x & X1 & X2)]; [now left|right; exists x; split; [now right|exact X2]].
      * intros [H|(x & [<-|X1] & X2 & X3)]; [now left|congruence|right; now exists x].
      * intros _. right. exists op. split; [now left|now split].
      * intros _. now left.
    + split.
      * intros [H|(x & X1 & X2)]; [now left|right; exists x; split; [now right|exact X2]].
      * intros [H|(x & [<-|X1] & X2 & X3)]; [now left|congruence|right; now exists x].
Qed.

Definition good (m : nat) : Prop := exists ops, wanted m = Some ops /\ NoDup ops.
Definition inv (s : tracer) (l : list nat) : Prop :=
  modules s = l /\ NoDup l /\ Forall good l /\ (forall o, holds (tables s) o (spec_called wanted l o)) /\
  (all_opcodes s = true <-> spec_all wanted tracable l).

Lemma wants_spec o m ops : wanted m = Some ops -> wants o m = in_range o && existsb (Z.eqb o) ops.
Proof. intros E. unfold Tracer_Spec.wants, in_range. now rewrite E. Qed.
Lemma existsb_in o ops : existsb (Z.eqb o) ops = true <-> In o ops.
Proof.
  rewrite existsb_exists. split; [intros (y & I & E); apply Z.eqb_eq in E; now subst|intros I; exists o; split; [exact I|apply Z.eqb_refl]].
Qed.
Lemma push_inv s l m : inv s l -> good m -> ~ In m l -> fst (push_module s m) = Done /\ inv (snd (push_module s m)) (l ++ [m]).
Proof.
  intros (M & ND & G & H & F) (ops & W & NO) NI. unfold Tracer_Model.push_module. rewrite W.
  pose proof (add_holds m ops NO (tables s) (all_opcodes s)) as AH. pose proof (add_flag m ops (tables s) (all_opcodes s)) as AF.
  destruct (fold_left (add_opcode m) ops (tables s, all_opcodes s)) as [ts all]. cbn [fst snd] in *. split; [reflexivity|].
  split; [cbn; now rewrite M|]. split; [|split; [|split]].
  - clear - ND NI. induction ND as [|x l X _ IH]; cbn; [constructor; [easy|constructor]|]. cbn in NI. constructor; [|tauto].
    rewrite in_app_iff. cbn. intuition congruence.
  - apply Forall_app. split; [exact G|]. constructor; [now exists ops|constructor].
  - intros o. cbn [tables]. unfold spec_called. rewrite filter_app. cbn [filter]. rewrite (wants_spec o m ops W).
    specialize (AH o _ (H o)). destruct (in_range o && existsb (Z.eqb o) ops); [exact AH|]. now rewrite app_nil_r.
  - cbn [all_opcodes]. rewrite AF, F. split.
    + intros [(op & k & K1 & K2 & K3)|(op & I & R & T)].
      * exists op, k. split; [rewrite in_app_iff; now left|now split].
      * exists op, m. split; [rewrite in_app_iff; right; now left|]. split; [|exact T]. rewrite (wants_spec op m ops W), R. now apply existsb_in.
    + intros (op & k & K1 & K2 & K3). apply in_app_iff in K1 as [K1|[<-|[]]]; [left; now exists op, k|]. right. exists op.
      rewrite (wants_spec op m ops W) in K2. apply andb_prop in K2 as [K2 K4]. split; [now apply existsb_in|now split].
Qed.

Lemma clear_column m ts o : column (map (clear m) ts) o = map (fun x => match x with Some k => if Nat.eqb k m then None else Some k | None => None end) (column ts o).
Proof. unfold column. rewrite !map_map. reflexivity. Qed.
Lemma clear_others m hs : ~ In m hs -> map (fun x => match x with Some k => if Nat.eqb k m then None else Some k | None => None end) (map Some hs) = map Some hs.
Proof.
  induction hs as [|h hs IH]; [reflexivity|]. cbn. intros N. destruct (Nat.eqb_spec h m); [tauto|]. f_equal. apply IH. tauto.
Qed.
Lemma clear_none m k : map (fun x => match x with Some k => if Nat.eqb k m then None else Some k | None => None end) (repeat None k) = repeat (@None nat) k.
Proof. induction k; [reflexivity|]. cbn. now f_equal. Qed.
Lemma in_opcodes o : In o opcodes <-> in_range o = true.
Proof.
  unfold opcodes, in_range. rewrite in_map_iff. split.
  - intros (k & <- & I). apply in_seq in I. apply andb_true_intro. split; [apply Z.leb_le|apply Z.ltb_lt]; lia.
  - intros R. apply andb_prop in R as [R1 R2]. apply Z.leb_le in R1. apply Z.ltb_lt in R2. exists (Z.to_nat o). split; [lia|]. apply in_seq. lia.
Qed.
Lemma pop_inv s l m : inv s (l ++ [m]) -> pop_module s m = (Done, snd (pop_module s m)) /\ inv (snd (pop_module s m)) l.
Proof.
  intros (M & ND & G & H & F). unfold Tracer_Model.pop_module. rewrite M, rev_app_distr. cbn [rev app]. rewrite Nat.eqb_refl. cbn [negb snd]. split; [reflexivity|].
  assert (NI : ~ In m l /\ NoDup l).
  { apply NoDup_remove in ND as [N1 N2]. now rewrite app_nil_r in N1, N2. }
  destruct NI as [NI NDl]. assert (HC : forall o, holds (map (clear m) (tables s)) o (spec_called wanted l o)).
  { intros o. destruct (H o) as [k E]. unfold holds. rewrite clear_column, E. unfold spec_called in *. rewrite filter_app. cbn [filter].
    assert (NF : ~ In m (filter (wants o) l)) by (rewrite filter_In; tauto). destruct (wants o m).
    - exists (S k). rewrite map_app, !map_app, clear_others, clear_none by exact NF. cbn [map]. rewrite Nat.eqb_refl. now rewrite <- app_assoc.
    - exists k. rewrite app_nil_r, map_app, clear_others, clear_none by exact NF. reflexivity. }
  split; [apply rev_involutive|]. split; [exact NDl|]. split; [apply Forall_app in G; tauto|]. split; [exact HC|]. cbn [all_opcodes].
  destruct (all_opcodes s) eqn:A.
  - unfold still_all. destruct (map (clear m) (tables s)) as [|t ts] eqn:TS.
    + split; [discriminate|]. intros (op & k & K1 & K2 & K3). destruct (HC op) as [j E]. cbn in E.
      assert (I : In k (spec_called wanted l op)) by (apply filter_In; now split). destruct (spec_called wanted l op); [destruct I|discriminate].
    + rewrite existsb_exists. split.
      * intros (op & I & T). destruct (HC op) as [j E]. cbn [column map] in E. destruct (t op) as [k|] eqn:TO; [|discriminate].
        destruct (spec_called wanted l op) as [|k' r] eqn:SC; [destruct j; discriminate|]. exists op, k'.
        assert (I' : In k' (spec_called wanted l op)) by (rewrite SC; now left). apply filter_In in I' as [I1 I2].
        split; [exact I1|split; [exact I2|now apply negb_true_iff]].
      * intros (op & k & K1 & K2 & K3). exists op. split.
        { apply in_opcodes. unfold Tracer_Spec.wants in K2. apply andb_prop in K2 as [K2 _]. exact K2. }
        destruct (HC op) as [j E]. cbn [column map] in E. assert (I : In k (spec_called wanted l op)) by (apply filter_In; now split).
        destruct (spec_called wanted l op) as [|k' r]; [destruct I|]. cbn in E. injection E as E1 E2. rewrite E1. now rewrite K3.
  - split; [discriminate|]. intros (op & k & K1 & K2 & K3). apply F. exists op, k. split; [rewrite in_app_iff; now left|now split].
Qed.
Lemma called_spec s l o : inv s l -> called s o = spec_called wanted l o.
Proof.
  intros (_ & _ & _ & H & _). destruct (H o) as [k E]. unfold called.
  assert (X : forall ts, flat_map (fun t : table => match t o with Some m => [m] | None => [] end) ts = flat_map (fun x => match x with Some m => [m] | None => [] end) (column ts o)).
  { induction ts as [|t ts IH]; [reflexivity|]. cbn. now rewrite IH. }
  rewrite X, E, flat_map_app. assert (Y : flat_map (fun x => match x with Some m => [m] | None => [] end) (repeat (@None nat) k) = []) by (clear E; induction k; [reflexivity|exact IHk]).
  rewrite Y, app_nil_r. clear. induction (spec_called wanted l o) as [|x r IH]; [reflexivity|]. cbn. now f_equal.
Qed.

Lemma step_inv s l a : inv s l -> (match a with Push m => good m /\ ~ In m l | Pop _ => True end) ->
  fst (act wanted tracable s a) = fst (spec_act wanted l a) /\ inv (snd (act wanted tracable s a)) (snd (spec_act wanted l a)).
Proof.
  intros I P. destruct a as [m|m]; cbn [act spec_act].
  - destruct P as [G NI]. destruct (push_inv s l m I G NI) as [E J]. destruct G as (ops & W & _). rewrite W. now split.
  - pose proof I as (M & _). destruct l as [|x l'] eqn:L.
    + unfold Tracer_Model.pop_module. rewrite M. now split.
    + destruct (exists_last (l := x :: l')) as (l0 & z & E); [discriminate|]. rewrite E in *. rewrite last_last.
      assert (NE : match l0 ++ [z] with [] => true | _ => false end = false) by (destruct l0; reflexivity). try rewrite NE; cbv iota.
      destruct (Nat.eqb_spec z m) as [->|N].
      * destruct (pop_inv s l0 m I) as [P1 P2]. rewrite P1, removelast_last. split; [reflexivity|exact P2].
      * unfold Tracer_Model.pop_module. rewrite M, rev_app_distr. cbn [rev app]. destruct (Nat.eqb_spec m z); [congruence|]. now split.
Qed.
Lemma play_inv h : forall s l, inv s l -> proper wanted l h ->
  fst (play (act wanted tracable) s h) = fst (play (spec_act wanted) l h) /\ inv (snd (play (act wanted tracable) s h)) (snd (play (spec_act wanted) l h)).
Proof.
  induction h as [|a h IH]; intros s l I P; [now split|]. cbn [proper] in P. destruct P as [P1 P2]. cbn [play].
  destruct (step_inv s l a I) as [E J]. { destruct a; [|exact Logic.I]. exact P1. }
  destruct (act wanted tracable s a) as [x s1], (spec_act wanted l a) as [x' l1]. cbn [fst snd] in *. subst x'.
  destruct (IH s1 l1 J P2) as [E2 J2]. destruct (play _ s1 h) as [xs s2], (play (spec_act wanted) l1 h) as [xs' l2]. cbn [fst snd] in *. subst. now split.
Qed.
Lemma inv_new : inv new_tracer [].
Proof.
  split; [reflexivity|]. split; [constructor|]. split; [constructor|]. split; [intros o; now exists 0%nat|].
  split; [discriminate|]. intros (op & m & [] & _).
Qed.

(** C141, partial.  After any installations and removals, each answered as for a stack, an instruction is shown to
    exactly those installed modules that want it, each once, in the order of their installation; and all
    instructions are traced iff some installed module wants one that is not traced by default.
    Missing: modules installed twice and modules that are refused; both refuted below. *)
Theorem C141_modules_partial (h : list action) : proper wanted [] h ->
  let '(answers, s) := play (act wanted tracable) new_tracer h in
  let '(expected, l) := play (spec_act wanted) [] h in
  answers = expected /\ modules s = l /\ (forall op, called s op = spec_called wanted l op) /\
  (all_opcodes s = true <-> spec_all wanted tracable l).
Proof.
  intros P. destruct (play_inv h new_tracer [] inv_new P) as [E J].
  destruct (play (act wanted tracable) new_tracer h) as [answers s], (play (spec_act wanted) [] h) as [expected l]. cbn [fst snd] in *.
  split; [exact E|]. split; [exact (proj1 J)|]. split; [intros op; now apply called_spec|]. exact (proj2 (proj2 (proj2 (proj2 J)))).
Qed.
End M.
Print Assumptions C141_modules_partial.

Definition w (m : nat) : option (list Z) :=
  match m with 1%nat => Some [7; 9; 256] | 2%nat => Some [9; 200] | 3%nat => None | _ => Some [9] end.
Definition tr (op : Z) : bool := negb (op =? 200).
Example C141_modules_partial_witness :
  let h := [Push 1; Push 2; Push 4; Pop 2; Pop 4; Pop 2; Push 5] in
  proper w [] h /\ fst (play (act w tr) new_tracer h) = [Done; Done; Done; OutOfOrder; Done; Done; Done] /\
  called (snd (play (act w tr) new_tracer h)) 9 = [1; 5]%nat /\ all_opcodes (snd (play (act w tr) new_tracer (firstn 4 h))) = true.
Proof.
  cbn zeta. split; [|split; [reflexivity|split; reflexivity]].
  assert (N : forall a b : Z, a <> b -> NoDup [a; b]) by (intros a b D; constructor; [intros [E|[]]; congruence|constructor; [easy|constructor]]).
  cbn. repeat split; try tauto; try (eexists; split; [reflexivity|]); try lia.
  - constructor; [cbn; lia|]. apply N. lia.
  - apply N. lia.
  - constructor; [easy|constructor].
  - constructor; [easy|constructor].
Qed.

(** C141, violated.  A module that is installed twice is gone after it is removed once: it is still listed, and no
    instruction is shown to it. *)
Theorem C141_twice_refuted : exists (h : list action),
  let '(answers, s) := play (act w tr) new_tracer h in
  let '(expected, l) := play (spec_act w) [] h in
  answers = expected /\ modules s = l /\ spec_called w l 9 = [4]%nat /\ called s 9 = [].
Proof. exists [Push 4; Push 4; Pop 4]. repeat split; reflexivity. Qed.
Print Assumptions C141_twice_refuted.
(** C141, violated.  A module that is refused stays on the stack, and the module below cannot be removed. *)
Theorem C141_refused_refuted : exists (h : list action),
  let '(answers, s) := play (act w tr) new_tracer h in
  let '(expected, l) := play (spec_act w) [] h in
  expected = [Done; WrongType; Done] /\ l = [] /\ answers = [Done; WrongType; OutOfOrder] /\ modules s = [4; 3]%nat.
Proof. exists [Push 4; Push 3; Pop 4]. repeat split; reflexivity. Qed.
Print Assumptions C141_refused_refuted.

Definition if_some (P : prog -> Prop) (o : option prog) : Prop := match o with Some q => P q | None => True end.
Fixpoint prog_ind' (P : prog -> Prop) (hl : forall k, P (Look k)) (hs : forall a b, P a -> P b -> P (Seq a b))
  (hw : forall d b, P b -> P (With d b)) (hr : forall x, P (Raise x))
  (ht : forall b h, P b -> (forall x, if_some P (h x)) -> P (Try b h)) (p : prog) : P p :=
  let go := prog_ind' P hl hs hw hr ht in
  match p with
  | Look k => hl k
  | Seq a b => hs a b (go a) (go b)
  | With d b => hw d b (go b)
  | Raise x => hr x
  | Try b h => ht b h (go b) (fun x => match h x as o return if_some P o with Some q => go q | None => Logic.I end)
  end.
(** C142, partial.  However blocks that switch tracing off or on are nested and left, code is traced iff the innermost
    block around it says so, and after a block tracing is as before it.
    Missing: blocks left by GeneratorExit; refuted below. *)
Theorem C142_switching_partial (p : prog) : stays p -> forall tracing,
  run p tracing = (fst (spec_run p tracing), tracing, snd (spec_run p tracing)).
Proof.
  induction p as [k|a b IHa IHb|d body IH|x|body handler IH IHh] using prog_ind'; cbn [stays run spec_run]; intros S tracing.
  - reflexivity.
  - destruct S as [S1 S2]. rewrite (IHa S1). destruct (spec_run a tracing) as [l [x|]]; cbn [fst snd]; [reflexivity|]. rewrite (IHb S2).
    destruct (spec_run b tracing); reflexivity.
  - destruct S as [S1 S2]. specialize (S2 (negb d)).
    assert (E : (if negb (Bool.eqb d tracing) then tracing else negb d) = negb d) by now destruct d, tracing. rewrite E, (IH S1).
    destruct (spec_run body (negb d)) as [l o]. cbn [fst snd] in *.
    assert (G : match o with Some GeneratorExit => false | _ => true end = true) by (destruct o as [[|n]|]; congruence). rewrite G.
    f_equal. f_equal. now destruct d, tracing.
  - reflexivity.
  - destruct S as [S1 S2]. rewrite (IH S1). destruct (spec_run body tracing) as [l [x|]]; cbn [fst snd]; [|reflexivity].
    specialize (S2 x). specialize (IHh x). unfold if_some in IHh. destruct (handler x) as [h|]; [|reflexivity]. rewrite (IHh S2). destruct (spec_run h tracing); reflexivity.
Qed.
Print Assumptions C142_switching_partial.
Example C142_switching_partial_witness :
  let p := Seq (Try (With true (Seq (Look 1) (With false (Seq (Look 2) (With false (Raise (OtherExn 5))))))) (fun _ => Some (Look 3))) (Look 4) in
  stays p /\ run p true = ([(1, false); (2, true); (3, true); (4, true)]%nat, true, None).
Proof. cbn. repeat split; discriminate. Qed.
(** C142, violated.  After a block that switches tracing off is left by GeneratorExit, tracing stays off. *)
Theorem C142_generator_exit_refuted : exists p : prog,
  spec_run p true = ([(1, false); (2, true)]%nat, None) /\ run p true = ([(1, false); (2, false)]%nat, false, None).
Proof. exists (Try (With true (Seq (Look 1) (Raise GeneratorExit))) (fun _ => Some (Look 2))). split; reflexivity. Qed.
Print Assumptions C142_generator_exit_refuted.
