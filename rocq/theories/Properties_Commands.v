(** C161: the status and the output of search, diffbehavior and cover. *)
From Coq Require Import ZArith List Bool Lia Permutation.
From Verif Require Import Cli_Model Commands_Model Commands_Spec.
Import ListNotations.

Lemma load_loaded : forall l, (exists f, checked_fn_load l = FnLoaded f) <-> names_function l.
Proof.
  intros l. split.
  - intros [f H]. destruct l as [[|[[g|fs]|ms] r]|[]]; try discriminate.
    cbn [checked_fn_load] in H. destruct (f_callable g) eqn:E; [|discriminate].
    exists g, r. split; [reflexivity|exact E].
  - intros [f [r [-> E]]]. exists f. cbn [checked_fn_load]. rewrite E. reflexivity.
Qed.

Lemma load_foreseen : forall l, foreseen l -> checked_fn_load l <> FnRaises.
Proof.
  intros l [->|[e [r ->]]]; [discriminate|]. destruct e as [[f|fs]|ms]; cbn [checked_fn_load]; try discriminate.
  destruct (f_callable f); discriminate.
Qed.

Lemma load_names_foreseen : forall l, names_function l -> foreseen l.
Proof. intros l [f [r [-> _]]]. right. exists (EMember (MFunc f)), r. reflexivity. Qed.

Lemma last_of_app : forall (l : list Z) (o : option Z), fold_left (fun _ e => Some e) l o = match rev l with [] => o | e :: _ => Some e end.
Proof.
  induction l as [|x l IH]; intros o; [reflexivity|]. cbn [fold_left rev]. rewrite IH.
  destruct (rev l); reflexivity.
Qed.

(** search: 0 with the last example found, or all of them, if there is one; 1 if there is
    none; 2 if a function cannot be loaded. *)
Theorem C161_search_partial : forall t fmt all found,
  foreseen t -> (forall l, fmt = Some l -> foreseen l) ->
  let ready := names_function t /\ forall l, fmt = Some l -> names_function l in
  let (e, out) := search t fmt all found in
  (ready -> forall x pre, found = pre ++ [x] ->
     e = Status 0 /\ out = (if all then found else [x])) /\
  (ready -> found = [] -> e = Status 1 /\ out = []) /\
  (~ ready -> e = Status 2 /\ out = []).
Proof.
  intros t fmt all found F FF ready.
  assert (L1 := load_loaded t). assert (R1 := load_foreseen t F).
  assert (GO : forall pre x, found = pre ++ [x] -> last_of found = Some x).
  { intros pre x ->. unfold last_of. rewrite last_of_app, rev_app_distr. reflexivity. }
  unfold search. destruct (checked_fn_load t) as [f| |] eqn:E1; [| |congruence].
  2: { assert (N : ~ names_function t) by (intros N; apply L1 in N; destruct N; discriminate).
       split; [intros [A _]; contradiction|]. split; [intros [A _]; contradiction|].
       intros _. split; reflexivity. }
  assert (N1 : names_function t) by (apply L1; exists f; reflexivity).
  destruct fmt as [l|].
  - assert (L2 := load_loaded l). assert (R2 := load_foreseen l (FF l eq_refl)).
    destruct (checked_fn_load l) as [g| |] eqn:E2; [| |congruence].
    + assert (N2 : names_function l) by (apply L2; exists g; reflexivity).
      assert (RD : ready) by (split; [exact N1|intros l' [= <-]; exact N2]).
      destruct (last_of found) as [x|] eqn:LA.
      * split; [intros _ y pre E; pose proof (GO _ _ E) as X; injection X as ->; split; reflexivity|].
        split; [intros _ ->; discriminate|]. intros NR. contradiction.
      * split; [intros _ y pre E; discriminate (GO _ _ E)|].
        split; [intros _ _; split; reflexivity|]. intros NR. contradiction.
    + assert (NR : ~ ready).
      { intros [_ A]. apply L2 in A; [destruct A; discriminate|reflexivity]. }
      split; [intros A; contradiction|]. split; [intros A; contradiction|]. intros _. split; reflexivity.
  - assert (RD : ready) by (split; [exact N1|intros l' [=]]).
    destruct (last_of found) as [x|] eqn:LA.
    + split; [intros _ y pre E; pose proof (GO _ _ E) as X; injection X as ->; split; reflexivity|].
      split; [intros _ ->; discriminate|]. intros NR. contradiction.
    + split; [intros _ y pre E; discriminate (GO _ _ E)|].
      split; [intros _ _; split; reflexivity|]. intros NR. contradiction.
Qed.
Print Assumptions C161_search_partial.

(** diffbehavior: 1 with all differences if there are some; 0 if there are none, and it
    says that all paths were exhausted exactly if they were; 2 if a function cannot be
    loaded or the two cannot be compared. *)
Theorem C161_diff_partial : forall l1 l2 result ex,
  foreseen l1 -> foreseen l2 ->
  let ready := names_function l1 /\ names_function l2 in
  let (e, out) := diffbehavior l1 l2 result ex in
  (ready -> forall ds, result = Diffs ds -> ds <> [] -> e = Status 1 /\ out = map Given ds) /\
  (ready -> result = Diffs [] ->
     e = Status 0 /\ In NoDifferences out /\ (In AllPathsExhausted out <-> (0 < ex)%Z)) /\
  (~ ready \/ result = CannotCompare -> e = Status 2 /\ out = []).
Proof.
  intros l1 l2 result ex F1 F2 ready.
  assert (A1 := load_loaded l1). assert (A2 := load_loaded l2).
  assert (R1 := load_foreseen l1 F1). assert (R2 := load_foreseen l2 F2).
  unfold diffbehavior.
  destruct (checked_fn_load l1) as [f| |] eqn:E1; [| |congruence].
  - destruct (checked_fn_load l2) as [g| |] eqn:E2; [| |congruence].
    + assert (RD : ready).
      { split; [apply A1; exists f; reflexivity|apply A2; exists g; reflexivity]. }
      destruct result as [|[|d ds]].
      * split; [intros _ ds [=]|]. split; [intros _ [=]|]. intros _. split; reflexivity.
      * split; [intros _ ds [= <-] N; congruence|]. split.
        -- intros _ _. split; [reflexivity|]. split; [left; reflexivity|].
           cbn [In]. destruct (Z.ltb_spec 0 ex); split; intros H'.
           ++ lia.
           ++ right. left. reflexivity.
           ++ destruct H' as [H'|[H'|[]]]; discriminate.
           ++ lia.
        -- intros [N|N]; [contradiction|discriminate].
      * split; [intros _ ds' [= <-] _; split; reflexivity|]. split; [intros _ [=]|].
        intros [N|N]; [contradiction|discriminate].
    + assert (NR : ~ ready) by (intros [_ N]; apply A2 in N; destruct N; discriminate).
      split; [intros N; contradiction|]. split; [intros N; contradiction|]. intros _. split; reflexivity.
  - assert (NR : ~ ready) by (intros [N _]; apply A1 in N; destruct N; discriminate).
    destruct (checked_fn_load l2); [| |congruence];
      (split; [intros N; contradiction|]; split; [intros N; contradiction|]; intros _; split; reflexivity).
Qed.
Print Assumptions C161_diff_partial.

Definition one : loading := Loads [EMember (MFunc (mkFunc 7 true))].
Example C161_example :
  foreseen one /\ names_function one /\
  search one None false [1%Z; 2%Z] = (Status 0, [2%Z]) /\
  search one (Some (Fails ErrorDuringImport)) true [1%Z] = (Status 2, []) /\
  diffbehavior one one (Diffs []) 1 = (Status 0, [NoDifferences; AllPathsExhausted]) /\
  diffbehavior one one (Diffs [4%Z]) 1 = (Status 1, [Given 4%Z]).
Proof.
  split; [right; eexists; eexists; reflexivity|].
  split; [exists (mkFunc 7 true), []; split; reflexivity|].
  split; [reflexivity|]. split; [reflexivity|]. split; reflexivity.
Qed.

(** Refuted without the assumptions: a target that is not found, or a directory without
    Python files, ends the process by an exception, with the status that means "no input"
    for search and "the functions differ" for diffbehavior. *)
Theorem C161_status_refuted : exists missing empty,
  missing = Fails NotFound /\ empty = Loads [] /\
  (forall l, l = missing \/ l = empty ->
     ~ names_function l /\
     (forall fmt all found, exit_status (fst (search l fmt all found)) = 1%Z) /\
     (forall l2 result ex, exit_status (fst (diffbehavior l l2 result ex)) = 1%Z)).
Proof.
  exists (Fails NotFound), (Loads []). split; [reflexivity|]. split; [reflexivity|].
  intros l [X|X]; subst l; (split; [intros [f [r [H _]]]; discriminate|]); split; reflexivity.
Qed.
Print Assumptions C161_status_refuted.

(** cover: every function and method of the targets is taken, once for each time it is
    named. *)
Lemma pop_spec : forall A (l : list A),
  match pop l with None => l = [] | Some (i, x) => l = i ++ [x] end.
Proof.
  induction l as [|a l IH]; [reflexivity|]. cbn [pop]. destruct l as [|b l]; [reflexivity|].
  destruct (pop (b :: l)) as [[i x]|]; [|discriminate]. rewrite IH. reflexivity.
Qed.

Lemma rounds_app : forall a b, rounds (a ++ b) = rounds a + rounds b.
Proof. intros a b. unfold rounds. rewrite map_app, list_sum_app. reflexivity. Qed.
Lemma rounds_members : forall ms, rounds (map EMember ms) = length ms.
Proof. induction ms as [|m ms IH]; [reflexivity|].
  change (rounds (map EMember (m :: ms))) with (S (rounds (map EMember ms))). rewrite IH. reflexivity. Qed.

Lemma collect_ok : forall n todo fns, rounds todo < n ->
  exists r, collect n todo fns = Some r /\
    Permutation r (fns ++ concat (map functions_of todo)).
Proof.
  induction n as [|n IH]; intros todo fns H; [lia|]. cbn [collect].
  pose proof (pop_spec entity todo) as P. destruct (pop todo) as [[rest e]|].
  - subst todo. rewrite rounds_app in H. rewrite map_app, concat_app. cbn [map concat].
    rewrite app_nil_r. destruct e as [[f|fs]|ms]; cbn [functions_of member_functions].
    + unfold rounds at 2 in H. cbn in H. destruct (IH rest (fns ++ [f])) as [r [E Q]]; [lia|].
      exists r. split; [exact E|]. rewrite Q, <- app_assoc.
      apply Permutation_app_head. apply Permutation_app_comm.
    + unfold rounds at 2 in H. cbn in H. destruct (IH rest (fns ++ fs)) as [r [E Q]]; [lia|].
      exists r. split; [exact E|]. rewrite Q, <- app_assoc.
      apply Permutation_app_head. apply Permutation_app_comm.
    + unfold rounds at 2 in H. cbn in H.
      destruct (IH (rest ++ map EMember ms) fns) as [r [E Q]].
      { rewrite rounds_app, rounds_members. lia. }
      exists r. split; [exact E|]. rewrite Q, map_app, concat_app, map_map. reflexivity.
  - subst todo. exists fns. split; [reflexivity|]. cbn [map concat]. rewrite app_nil_r. reflexivity.
Qed.

Lemma cover_loop_ok : forall pc pytest fns out lines,
  (forall f, In f fns -> f_callable f = true -> exists l, pc f = Examples l) ->
  cover_loop pc pytest fns out lines =
  (Status 0, let ex := concat (map (fun f => if f_callable f then match pc f with Examples l => l | _ => [] end else []) fns) in
             if pytest then out ++ lines ++ ex else out ++ ex).
Proof.
  intros pc pytest. induction fns as [|f fns IH]; intros out lines H; cbn [cover_loop map concat] in *.
  - rewrite !app_nil_r. reflexivity.
  - assert (H' : forall g, In g fns -> f_callable g = true -> exists l, pc g = Examples l).
    { intros g I. apply H. right. exact I. }
    destruct (f_callable f) eqn:C; [|exact (IH out lines H')].
    destruct (H f (or_introl eq_refl) C) as [l E]. rewrite E.
    destruct pytest; rewrite IH by exact H'; cbn zeta; rewrite <- !app_assoc; reflexivity.
Qed.

Theorem C161_cover_partial : forall es pc pytest,
  let fns := concat (map functions_of es) in
  fns <> [] ->
  (forall f, In f fns -> f_callable f = true -> exists l, pc f = Examples l) ->
  exists order out,
    cover (Loads es) pc pytest = (Status 0, out) /\ Permutation order fns /\
    out = concat (map (fun f => if f_callable f then match pc f with Examples l => l | _ => [] end else []) order).
Proof.
  intros es pc pytest fns NE H. cbn [cover].
  destruct (collect_ok (S (rounds es)) es []) as [r [E Q]]; [lia|]. cbn [app] in Q. rewrite E.
  assert (NR : r <> []).
  { intros ->. apply NE. apply Permutation_nil. exact Q. }
  destruct r as [|f r]; [congruence|].
  exists (f :: r). eexists. split; [|split; [exact Q|]].
  - rewrite cover_loop_ok; [reflexivity|]. intros g I. apply H. apply (Permutation_in _ Q I).
  - destruct pytest; reflexivity.
Qed.
Print Assumptions C161_cover_partial.
Example C161_cover_example :
  let f n := mkFunc n true in
  cover (Loads [EModule [MFunc (f 1%Z); MClass [f 2%Z; f 3%Z]]; EMember (MFunc (f 4%Z))])
        (fun g => Examples [f_name g]) true = (Status 0, [4; 2; 3; 1])%Z.
Proof. reflexivity. Qed.

(** Otherwise the status is 2; what the formats for humans have printed so far stays, but
    the pytest format then loses the tests of all functions already covered. *)
Theorem C161_cover_lost_refuted : exists es pc f l,
  In f (concat (map functions_of es)) /\ pc f = Examples l /\ l <> [] /\
  cover (Loads es) pc false = (Status 2, l) /\ cover (Loads es) pc true = (Status 2, []).
Proof.
  exists [EModule [MFunc (mkFunc 1 true); MFunc (mkFunc 2 true)]],
    (fun g => if (f_name g =? 2)%Z then Examples [5%Z] else NonDeterministic), (mkFunc 2 true), [5%Z].
  split; [right; left; reflexivity|]. split; [reflexivity|]. split; [discriminate|]. split; reflexivity.
Qed.
Print Assumptions C161_cover_lost_refuted.

(** The status of cover is 0 or 2: 2 exactly if there is nothing to cover or a function
    is not deterministic, or if the targets cannot be imported or found on the disk. *)
Lemma cover_loop_status : forall pc pytest fns out lines,
  let e := fst (cover_loop pc pytest fns out lines) in
  (e = Status 2 /\ exists f, In f fns /\ f_callable f = true /\ pc f = NonDeterministic) \/
  (e = Status 0 /\ forall f, In f fns -> f_callable f = true -> pc f <> NonDeterministic).
Proof.
  intros pc pytest. cbn zeta. induction fns as [|f fns IH]; intros out lines; cbn [cover_loop].
  - right. split; [reflexivity|]. intros f [].
  - assert (G : forall out lines,
      (f_callable f = true -> pc f <> NonDeterministic) ->
      let e := fst (cover_loop pc pytest fns out lines) in
      (e = Status 2 /\ exists g, In g (f :: fns) /\ f_callable g = true /\ pc g = NonDeterministic) \/
      (e = Status 0 /\ forall g, In g (f :: fns) -> f_callable g = true -> pc g <> NonDeterministic)).
    { intros o l D. cbn zeta. destruct (IH o l) as [[E [g [I X]]]|[E X]].
      - left. split; [exact E|]. exists g. split; [right; exact I|exact X].
      - right. split; [exact E|]. intros g [<-|I]; [exact D|exact (X g I)]. }
    destruct (f_callable f) eqn:C; [|apply G; discriminate].
    destruct (pc f) as [l|] eqn:P.
    + destruct pytest; apply G; intros _; discriminate.
    + left. split; [reflexivity|]. exists f. split; [left; reflexivity|]. split; assumption.
Qed.

Theorem C161_cover_status : forall es pc pytest,
  let fns := concat (map functions_of es) in
  let e := fst (cover (Loads es) pc pytest) in
  (e = Status 0 \/ e = Status 2) /\
  (e = Status 2 <-> fns = [] \/ exists f, In f fns /\ f_callable f = true /\ pc f = NonDeterministic).
Proof.
  intros es pc pytest fns. cbn [cover].
  destruct (collect_ok (S (rounds es)) es []) as [r [E Q]]; [lia|]. cbn [app] in Q.
  change (concat (map functions_of es)) with fns in Q. rewrite E.
  destruct r as [|f r].
  - cbn [fst]. split; [right; reflexivity|]. split; [|reflexivity]. intros _. left.
    apply Permutation_nil. exact Q.
  - cbn zeta. destruct (cover_loop_status pc pytest (f :: r) [] []) as [[S [g [I X]]]|[S X]];
      rewrite S.
    + split; [right; reflexivity|]. split; [|reflexivity]. intros _. right. exists g.
      split; [exact (Permutation_in _ Q I)|exact X].
    + split; [left; reflexivity|]. split; [discriminate|]. intros [N|[g [I [C P]]]].
      * rewrite N in Q. apply Permutation_sym, Permutation_nil in Q. discriminate.
      * exfalso. exact (X g (Permutation_in _ (Permutation_sym Q) I) C P).
Qed.
Print Assumptions C161_cover_status.
Example C161_cover_status_example : forall pc,
  cover (Loads [EModule [MClass []]]) pc false = (Status 2, []).
Proof. reflexivity. Qed.
