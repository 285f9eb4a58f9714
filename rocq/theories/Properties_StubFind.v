(** C140: the signatures found in stubs.  Model: [StubFind_Model]; spec: [StubFind_Spec]. *)
From Coq Require Import List Bool Arith Permutation.
Import ListNotations.
From Verif Require Import StubFind_Model StubFind_Spec.

Fixpoint stmt_ind' (P : stmt -> Prop) (hd : forall n g v, P (Def n g v)) (hc : forall n b, Forall P b -> P (Cls n b))
  (hi : forall m t b e, Forall P b -> Forall P e -> P (Cond m t b e)) (ho : P Other) (s : stmt) : P s :=
  let all := fix all (l : list stmt) : Forall P l :=
    match l with [] => Forall_nil P | x :: l => Forall_cons x (stmt_ind' P hd hc hi ho x) (all l) end in
  match s with
  | Def n g v => hd n g v
  | Cls n b => hc n b (all b)
  | Cond m t b e => hi m t b e (all b) (all e)
  | Other => ho
  end.
Definition result_of (l : list defn) : result := (signatures l, forallb d_valid l).
Definition block (l : list stmt) (steps : list nat) : result :=
  extend (extend_all (map (fun x => visit false x steps) l)) (extend_all (map (fun x => visit true x steps) l)).
Definition at_path (path : list nat) (s : stmt) : list defn := filter (named path) (defined s).

Lemma result_of_app l1 l2 : result_of (l1 ++ l2) = extend (result_of l1) (result_of l2).
Proof. unfold result_of, extend, signatures. cbn. now rewrite flat_map_app, forallb_app. Qed.
Lemma definitions_cons s l path : definitions (s :: l) path = at_path path s ++ definitions l path.
Proof. unfold definitions, at_path. cbn. apply filter_app. Qed.
Lemma filter_under n l path : filter (named path) (map (under n) l) =
  match path with [] => [] | m :: p => if Nat.eqb n m then map (under n) (filter (named p) l) else [] end.
Proof.
  destruct path as [|m p].
  - induction l as [|d l IH]; [reflexivity|]. cbn [map filter]. unfold named at 1. cbn [under d_path]. destruct (list_eq_dec Nat.eq_dec _ _); [discriminate|exact IH].
  - assert (K : forall d, named (m :: p) (under n d) = (n =? m) && named p d).
    { intros d. unfold named. cbn [under d_path]. destruct (Nat.eqb_spec n m) as [->|N]; cbn [andb].
      - destruct (list_eq_dec Nat.eq_dec (m :: d_path d) (m :: p)), (list_eq_dec Nat.eq_dec (d_path d) p); try reflexivity; congruence.
      - destruct (list_eq_dec Nat.eq_dec (n :: d_path d) (m :: p)); [congruence|reflexivity]. }
    induction l as [|d l IH]; [now destruct (n =? m)|]. cbn [map filter]. rewrite IH, K. destruct (n =? m); cbn [andb]; [|reflexivity].
    now destruct (named p d).
Qed.
Lemma result_under n l : result_of (map (under n) l) = result_of l.
Proof.
  unfold result_of, signatures. f_equal; induction l as [|d l IH]; cbn in *; congruence.
Qed.
(** [same] results: the same signatures in some order, and the same validity *)
Definition same (x y : result) : Prop := Permutation (fst x) (fst y) /\ snd x = snd y.
Lemma same_refl x : same x x.
Proof. split; reflexivity. Qed.
Lemma same_extend x y x' y' : same x x' -> same y y' -> same (extend x y) (extend x' y').
Proof. intros [P1 E1] [P2 E2]. split; cbn; [now apply Permutation_app|congruence]. Qed.

Fixpoint all_about (l : list stmt) : Prop := match l with [] => True | x :: l => about_sys x /\ all_about l end.
Fixpoint all_tidy (l : list stmt) : Prop := match l with [] => True | x :: l => tidy x /\ all_tidy l end.
(** a statement of the first loop, or of the second *)
Definition sound (R : result -> result -> Prop) (s : stmt) : Prop := forall steps, steps <> [] ->
  R (visit false s steps) (if is_cond s then nothing else result_of (at_path steps s)) /\
  R (visit true s steps) (if is_cond s then result_of (at_path steps s) else nothing).

Lemma block_same l steps : steps <> [] -> Forall (sound same) l -> same (block l steps) (result_of (definitions l steps)).
Proof.
  intros N. unfold block. induction 1 as [|s l S _ IH]; [apply same_refl|]. cbn [map extend_all fold_right]. rewrite definitions_cons, result_of_app.
  destruct (S steps N) as [S1 S2]. destruct IH as [IH1 IH2]. cbn [extend_all fold_right] in *.
  destruct S1 as [P1 E1], S2 as [P2 E2]. split; cbn [extend fst snd] in *.
  - destruct (is_cond s); cbn [nothing fst] in *.
    + apply Permutation_sym, Permutation_nil in P1. rewrite P1. cbn [app].
      etransitivity; [|apply Permutation_app; [exact P2|exact IH1]]. rewrite !app_assoc. apply Permutation_app_tail, Permutation_app_comm.
    + apply Permutation_sym, Permutation_nil in P2. rewrite P2. cbn [app]. rewrite <- app_assoc. apply Permutation_app; [exact P1|exact IH1].
  - rewrite E1, E2, <- IH2. unfold extend_all. destruct (is_cond s); cbn [nothing snd]; rewrite ?andb_true_l; [|now rewrite andb_assoc].
    rewrite !andb_assoc. f_equal. apply andb_comm.
Qed.
Lemma block_nil l : block l [] = nothing.
Proof.
  unfold block. assert (E : forall b, extend_all (map (fun x => visit b x []) l) = nothing).
  { intros b. induction l as [|s l IH]; [reflexivity|]. cbn [map extend_all fold_right]. unfold extend_all in IH. rewrite IH. now destruct s. }
  now rewrite !E.
Qed.
Lemma no_empty s : at_path [] s = [].
Proof.
  unfold at_path. induction s as [n g v|n b IH|m t b e IHb IHe|] using stmt_ind'; [reflexivity| | |reflexivity]; cbn [defined].
  - apply (filter_under n _ []).
  - assert (K : forall l, Forall (fun s => filter (named []) (defined s) = []) l -> filter (named []) (flat_map defined l) = []).
    { induction 1 as [|s l H _ IH]; [reflexivity|]. cbn. now rewrite filter_app, H. }
    destruct t as [[|]|]; [now apply K|now apply K|reflexivity].
Qed.
Lemma no_empty_block l : definitions l [] = [].
Proof. induction l as [|s l IH]; [reflexivity|]. now rewrite definitions_cons, no_empty, IH. Qed.

(** one step for both relations, given what blocks yield *)
Lemma sound_cls (R : result -> result -> Prop) n b (refl : forall x, R x x) : (forall steps, R (block b steps) (result_of (definitions b steps))) -> sound R (Cls n b).
Proof.
  intros H steps N. destruct steps as [|m p]; [congruence|]. cbn [visit is_cond negb andb]. split; [|apply refl]. unfold at_path. cbn [defined].
  rewrite filter_under. destruct (Nat.eqb n m); [|apply refl]. rewrite result_under. apply H.
Qed.
Lemma sound_def (R : result -> result -> Prop) n g v (refl : forall x, R x x) : sound R (Def n g v).
Proof.
  intros steps N. destruct steps as [|m p]; [congruence|]. cbn [visit is_cond]. split; [|apply refl]. unfold at_path. cbn [defined filter]. unfold named. cbn [d_path].
  destruct p as [|k p].
  - destruct (Nat.eqb_spec n m) as [->|NE]; destruct (list_eq_dec Nat.eq_dec _ _) as [E|NE']; try congruence; [|apply refl].
    unfold result_of, signatures. cbn. rewrite andb_true_r, app_nil_r. apply refl.
  - destruct (list_eq_dec Nat.eq_dec _ _) as [E|NE']; [discriminate|]. apply refl.
Qed.
Lemma sound_cond (R : result -> result -> Prop) t b e (refl : forall x, R x x) : t <> None -> (forall steps, R (block b steps) (result_of (definitions b steps))) ->
  (forall steps, R (block e steps) (result_of (definitions e steps))) -> sound R (Cond true t b e).
Proof.
  intros T HB HE steps N. destruct steps as [|m p]; [congruence|]. destruct t as [[|]|]; [| |congruence]; (split; [apply refl|]); [apply HB|apply HE].
Qed.
Lemma all_same s : about_sys s -> sound same s.
Proof.
  assert (K : forall l, Forall (fun s => about_sys s -> sound same s) l -> all_about l -> forall steps, same (block l steps) (result_of (definitions l steps))).
  { intros l F A steps. destruct steps as [|m p]; [rewrite block_nil, no_empty_block; apply same_refl|]. apply block_same; [discriminate|].
    induction F as [|x l H _ IH]; [constructor|]. destruct A as [A1 A2]. constructor; auto. }
  induction s as [n g v|n b IH|m t b e IHb IHe|] using stmt_ind'; intros A.
  - apply sound_def, same_refl.
  - apply sound_cls; [apply same_refl|]. apply K; assumption.
  - destruct A as (-> & T & A1 & A2). apply sound_cond; [apply same_refl|exact T|apply K; assumption|apply K; assumption].
  - intros [|m p] N; [congruence|]. split; apply same_refl.
Qed.

(** C140, partial.  The signatures found for a function are those of all its definitions in the parts of the stub
    that are for this interpreter, each as often as it is defined, and they are reported as complete iff each is.
    Missing: their order, which matters as the first fitting overload is taken; refuted below. *)
Theorem C140_signatures_partial (stub : list stmt) (path : list nat) : all_about stub -> path <> [] ->
  Permutation (fst (sig_from_ast stub path)) (signatures (definitions stub path)) /\
  snd (sig_from_ast stub path) = forallb d_valid (definitions stub path).
Proof.
  intros A N. assert (E : sig_from_ast stub path = block stub path) by (destruct path; [congruence|reflexivity]). rewrite E.
  apply (block_same stub path N). clear E. revert A. induction stub as [|s l IH]; [constructor|]. intros [A1 A2]. constructor; [now apply all_same|now apply IH].
Qed.
Print Assumptions C140_signatures_partial.

Lemma extend_nothing_r x : extend x nothing = x.
Proof. destruct x as [l v]. unfold extend. cbn. now rewrite app_nil_r, andb_true_r. Qed.
Lemma extend_nothing_l x : extend nothing x = x.
Proof. now destruct x. Qed.
Lemma extend_assoc x y z : extend (extend x y) z = extend x (extend y z).
Proof. unfold extend. cbn. now rewrite app_assoc, andb_assoc. Qed.
Lemma split_block l steps : steps <> [] -> Forall (sound eq) l ->
  extend_all (map (fun x => visit false x steps) l) = result_of (definitions (filter (fun s => negb (is_cond s)) l) steps) /\
  extend_all (map (fun x => visit true x steps) l) = result_of (definitions (filter is_cond l) steps).
Proof.
  intros N. induction 1 as [|s l S _ [IH1 IH2]]; [split; reflexivity|]. cbn [map extend_all fold_right]. unfold extend_all in *. rewrite IH1, IH2.
  destruct (S steps N) as [-> ->]. cbn [filter]. destruct (is_cond s); cbn [negb]; rewrite ?definitions_cons, ?result_of_app, ?extend_nothing_l; split; reflexivity.
Qed.
Lemma definitions_parts l path :
  (definitions (filter is_cond l) path = [] -> definitions l path = definitions (filter (fun s => negb (is_cond s)) l) path) /\
  (definitions (filter (fun s => negb (is_cond s)) l) path = [] -> definitions l path = definitions (filter is_cond l) path).
Proof.
  induction l as [|s l [IH1 IH2]]; [split; reflexivity|]. cbn [filter]. destruct (is_cond s); cbn [negb]; rewrite ?definitions_cons; split; intros E.
  - apply app_eq_nil in E as [E1 E2]. now rewrite E1, IH1.
  - now rewrite IH2.
  - now rewrite IH1.
  - apply app_eq_nil in E as [E1 E2]. now rewrite E1, IH2.
Qed.
Lemma block_eq l steps : apart l -> Forall (sound eq) l -> block l steps = result_of (definitions l steps).
Proof.
  intros A F. destruct steps as [|m p]; [now rewrite block_nil, no_empty_block|]. unfold block.
  destruct (split_block l (m :: p)) as [-> ->]; [discriminate|exact F|]. destruct (definitions_parts l (m :: p)) as [D1 D2].
  destruct (A (m :: p)) as [E|E]; [rewrite (D1 E), E, extend_nothing_r|rewrite (D2 E), E, extend_nothing_l]; reflexivity.
Qed.
Lemma all_eq s : about_sys s -> tidy s -> sound eq s.
Proof.
  assert (K : forall l, Forall (fun s => about_sys s -> tidy s -> sound eq s) l -> all_about l -> all_tidy l -> Forall (sound eq) l).
  { induction 1 as [|x l H _ IH]; [constructor|]. intros [A1 A2] [T1 T2]. constructor; auto. }
  induction s as [n g v|n b IH|m t b e IHb IHe|] using stmt_ind'; intros A T.
  - apply sound_def. reflexivity.
  - destruct T as [T1 T2]. apply sound_cls; [reflexivity|]. intros steps. apply block_eq; [exact T1|now apply K].
  - destruct A as (-> & N & A1 & A2). destruct T as (T1 & T2 & T3 & T4).
    apply sound_cond; [reflexivity|exact N| |]; intros steps; apply block_eq; try assumption; now apply K.
  - intros [|m p] N; [congruence|]. split; reflexivity.
Qed.
(** In their order, if no function is defined partly inside and partly outside the ifs of a block *)
Theorem C140_order_partial (stub : list stmt) (path : list nat) : all_about stub -> apart stub -> all_tidy stub ->
  fst (sig_from_ast stub path) = signatures (definitions stub path).
Proof.
  intros A AP T. destruct path as [|m p]; [now rewrite no_empty_block|]. unfold sig_from_ast. fold (block stub (m :: p)).
  rewrite (block_eq stub (m :: p) AP); [reflexivity|]. clear AP. induction stub as [|s l IH]; [constructor|]. destruct A as [A1 A2], T as [T1 T2].
  constructor; [now apply all_eq|auto].
Qed.
Print Assumptions C140_order_partial.
(** class 7 with a method 1 that has two overloads for this interpreter and a third for another one, and a method 2 *)
Example C140_order_partial_witness :
  let stub := [Cond true (Some false) [Cls 7 [Def 1 (Some 99) true]] []; Def 1 (Some 98) true;
               Cls 7 [Cond true (Some true) [Def 1 (Some 10) true; Def 1 (Some 11) true] [Def 1 (Some 12) false]; Def 2 (Some 20) false]] in
  sig_from_ast stub [7; 1] = ([10; 11], true) /\ sig_from_ast stub [7; 2] = ([20], false) /\ sig_from_ast stub [1] = ([98], true) /\
  all_about stub /\ fst (sig_from_ast stub [7; 1]) = signatures (definitions stub [7; 1]).
Proof. cbn. repeat split; discriminate. Qed.
Example C140_tidy_witness :
  let b := [Cond true (Some true) [Def 1 (Some 10) true; Def 1 (Some 11) true] []; Def 2 (Some 20) true] in
  all_about b /\ apart b /\ all_tidy b /\ sig_from_ast b [1] = ([10; 11], true).
Proof.
  cbn zeta.
  assert (AP1 : apart [Def 1 (Some 10) true; Def 1 (Some 11) true]) by (intros path; left; reflexivity).
  assert (AP0 : apart []) by (intros path; left; reflexivity).
  split; [cbn; repeat split; discriminate|]. split; [|split; [cbn; tauto|reflexivity]].
  intros path. destruct path as [|x [|y p]]; [left; reflexivity| |left; destruct x as [|[|[|x]]]; reflexivity].
  destruct x as [|[|[|x]]]; [left|right|left|left]; reflexivity.
Qed.

(** C140, violated.  Overloads inside an if that precede others outside it come after them. *)
Theorem C140_order_refuted : exists stub path, all_about stub /\
  signatures (definitions stub path) = [10; 20] /\ fst (sig_from_ast stub path) = [20; 10].
Proof.
  exists [Cond true (Some true) [Def 1 (Some 10) true] []; Def 1 (Some 20) true], [1]. split; [cbn; repeat split; discriminate|]. split; reflexivity.
Qed.
Print Assumptions C140_order_refuted.
