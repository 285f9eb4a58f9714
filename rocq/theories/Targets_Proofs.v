From Coq Require Import String.
From Coq Require Import List Bool.
From Verif Require Import Targets_Model Targets_Spec.
Import ListNotations.
Open Scope string_scope.
Open Scope list_scope.

Lemma no_messages c : syntax_messages c = [] <-> well_formed c.
Proof.
  unfold syntax_messages, well_formed. split.
  - intro H. apply app_eq_nil in H as [A B]. split; [exact B|]. intros q I. apply in_app_iff in I.
    destruct (c_compiles q) eqn:E; [reflexivity|]. apply map_eq_nil in A.
    assert (X : In q (filter (fun q => negb (c_compiles q)) (c_pre c ++ c_post c))) by (apply filter_In; split; [exact I|now rewrite E]).
    rewrite A in X. destruct X.
  - intros [A B]. rewrite A, app_nil_r. replace (filter _ _) with (@nil cond); [reflexivity|]. symmetry.
    destruct (filter _ _) as [|q l] eqn:E; [reflexivity|].
    assert (X : In q (filter (fun q => negb (c_compiles q)) (c_pre c ++ c_post c))) by (rewrite E; now left).
    apply filter_In in X as [X Y]. rewrite B in Y; [discriminate|]. now apply in_app_iff.
Qed.
Lemma messages_are c i : In i (syntax_messages c) <-> is_problem c i.
Proof.
  unfold syntax_messages, is_problem. rewrite in_app_iff, in_map_iff. split.
  - intros [(q & <- & I)|I]; [right|now left]. apply filter_In in I as [I N]. exists q. apply in_app_iff in I.
    repeat split; [exact I|]. now destruct (c_compiles q).
  - intros [I|(q & I & N & <-)]; [now right|left]. exists q. split; [reflexivity|]. apply filter_In. split; [now apply in_app_iff|now rewrite N].
Qed.
Lemma all_compile c : well_formed c -> filter c_compiles (c_post c) = c_post c.
Proof.
  intros [_ W]. assert (A : forall q, In q (c_post c) -> c_compiles q = true) by (intros; apply W; now right).
  revert A. clear W. induction (c_post c) as [|q l IH]; intro A; [reflexivity|]. cbn. rewrite A by now left. f_equal. apply IH. intros; apply A; now right.
Qed.

Section D.
Variable dk : kinds.
Lemma full_enabled m o :
  f_enabled (overlay (overlay (default_options dk) (if m_callable m then m_opts m else Opts None None)) o) = true <-> enabled_for m o.
Proof.
  unfold enabled_for. cbn. destruct (o_enabled o) as [[]|]; cbn.
  - split; auto.
  - split; [discriminate|]. intros [H|[H _]]; discriminate.
  - destruct (m_callable m); cbn.
    + destruct (o_enabled (m_opts m)) as [[]|]; split; auto; try discriminate.
      * intros _. right. split; auto. right. discriminate.
      * intros [H|[_ [H|H]]]; congruence.
      * intros _. right. split; auto. right. discriminate.
    + split; auto.
Qed.
Lemma full_kinds m o :
  kinds_for dk m o (f_kinds (overlay (overlay (default_options dk) (if m_callable m then m_opts m else Opts None None)) o)).
Proof.
  unfold kinds_for. cbn. destruct (o_kinds o); [reflexivity|]. destruct (m_callable m); [|reflexivity].
  cbn. now destruct (o_kinds (m_opts m)).
Qed.
Lemma kinds_fun m o a b : kinds_for dk m o a -> kinds_for dk m o b -> a = b.
Proof.
  unfold kinds_for. destruct (o_kinds o); [congruence|]. destruct (m_callable m); [|congruence]. destruct (o_kinds (m_opts m)); congruence.
Qed.

Lemma function_in m found o k : In k (analyze_function dk m found o) <->
  exists ks c, enabled_for m o /\ kinds_for dk m o ks /\ found ks = Some c /\
    ((well_formed c /\ exists q, In q (c_post c) /\ k = Check q (c_pre c)) \/
     (~ well_formed c /\ k = Problems (syntax_messages c))).
Proof.
  unfold analyze_function. cbv zeta. pose proof (full_enabled m o) as E. pose proof (full_kinds m o) as K.
  set (full := overlay _ _) in *. destruct (f_enabled full) eqn:F; cbn [negb].
  - destruct (found (f_kinds full)) as [c|] eqn:C.
    + destruct (syntax_messages c) as [|i l] eqn:S.
      * apply no_messages in S. rewrite all_compile by exact S. rewrite in_map_iff. split.
        -- intros (q & <- & I). exists (f_kinds full), c. repeat split; try tauto. left. split; [exact S|]. eauto.
        -- intros (ks & c' & _ & K' & C' & [[W (q & I & ->)]|[W _]]); pose proof (kinds_fun _ _ _ _ K K') as <-;
             rewrite C in C'; injection C' as <-; [eauto|contradiction].
      * assert (NW : ~ well_formed c) by (intro W; apply no_messages in W; congruence). split.
        -- intros [<-|[]]. exists (f_kinds full), c. repeat split; try tauto. right. split; [exact NW|]. now rewrite S.
        -- intros (ks & c' & _ & K' & C' & [[W _]|[_ ->]]); pose proof (kinds_fun _ _ _ _ K K') as <-;
             rewrite C in C'; injection C' as <-; [contradiction|]. left. now rewrite S.
    + split; [intros []|]. intros (ks & c' & _ & K' & C' & _). pose proof (kinds_fun _ _ _ _ K K') as <-. congruence.
  - split; [intros []|]. intros (ks & c' & E' & _). apply E in E'. discriminate.
Qed.

Lemma get_in n l c : NoDup (map fst l) -> (get n l = Some c <-> In (n, c) l).
Proof.
  induction l as [|[k d] l IH]; cbn; intro ND; [split; [discriminate|intros []]|]. inversion ND as [|? ? NI ND']; subst.
  destruct (String.eqb_spec n k) as [E|E].
  - subst k. split; [intros [= ->]; now left|]. intros [[= ->]|I]; [reflexivity|]. exfalso. apply NI. apply in_map_iff. exists (n, c). auto.
  - rewrite IH by exact ND'. split; [auto|]. intros [[= A B]|I]; [congruence|exact I].
Qed.

Lemma runs_iff abstract m :
  (if m_abstract m then false else negb (abstract && match m_desc m with DStatic | DClass => false | _ => true end)) = true <-> runnable abstract m.
Proof.
  unfold runnable. destruct (m_abstract m); [split; [discriminate|intros [H _]; discriminate]|].
  destruct abstract; cbn; [|split; auto]. destruct (m_desc m); cbn; split; try discriminate; auto;
    intros [_ [H|[H|H]]]; discriminate.
Qed.
Lemma method_in abstract members methods o n c n' k :
  In (n', k) (analyze_method dk abstract members methods o (n, c)) <->
  n' = n /\ runnable abstract (members n) /\ has_any (if String.eqb n "__init__" then without_invariants c else c) = true /\
  In k (analyze_function dk (members n) (fun ks => get n (methods ks)) o).
Proof.
  unfold analyze_method. pose proof (runs_iff abstract (members n)) as R.
  destruct (m_abstract (members n)); [split; [intros []|intros (_ & H & _); apply R in H; discriminate]|].
  destruct (abstract && _)%bool; [split; [intros []|intros (_ & H & _); apply R in H; discriminate]|].
  cbv zeta. destruct (has_any _); [|split; [intros []|intros (_ & _ & H & _); discriminate]].
  rewrite in_map_iff. split.
  - intros (x & [= <- <-] & I). repeat split; auto; now apply R.
  - intros (-> & _ & _ & I). eauto.
Qed.
Lemma class_in o abstract members methods nested :
  (forall ks, NoDup (map fst (methods ks))) ->
  (forall n, o_kinds o <> None \/ m_callable (members n) = false \/ o_kinds (m_opts (members n)) = None) ->
  exists ks, (o_kinds o = Some ks \/ o_kinds o = None /\ ks = dk) /\
  forall n k, In (n, k) (analyze_class dk o (Cls abstract members methods nested)) <->
    exists c, In (n, c) (methods ks) /\ runnable abstract (members n) /\ enabled_for (members n) o /\
      (c_pre c <> [] \/ c_messages c <> [] \/ exists q, In q (c_post c) /\ (n = "__init__" -> c_invariant q = false)) /\
      ((well_formed c /\ exists q, In q (c_post c) /\ k = Check q (c_pre c)) \/
       (~ well_formed c /\ k = Problems (syntax_messages c))).
Proof.
  intros ND NK. exists (f_kinds (overlay (default_options dk) o)). split.
  { cbn. destruct (o_kinds o); auto. }
  set (ks := f_kinds (overlay (default_options dk) o)).
  assert (KF : forall n, kinds_for dk (members n) o ks).
  { intro n. unfold kinds_for, ks. cbn. specialize (NK n). destruct (o_kinds o); [reflexivity|].
    destruct NK as [H|[H|H]]; [congruence| |]; rewrite H; [reflexivity|now destruct (m_callable (members n))]. }
  assert (HA : forall n c, has_any (if String.eqb n "__init__" then without_invariants c else c) = true <->
     c_pre c <> [] \/ c_messages c <> [] \/ exists q, In q (c_post c) /\ (n = "__init__" -> c_invariant q = false)).
  { intros n c. assert (NE : forall A (l : list A), nonempty l = true <-> l <> []) by (intros A [|x l]; cbn; split; congruence).
    assert (NI : forall A (l : list A), l <> [] <-> exists x, In x l).
    { intros A [|x l]; split; try congruence; [intros [? []]|eexists; now left]. }
    unfold has_any. rewrite !orb_true_iff, !NE. destruct (String.eqb_spec n "__init__") as [E|E].
    - unfold without_invariants. cbn [c_pre c_post c_messages].
      assert (P : filter (fun q => negb (c_invariant q)) (c_post c) <> [] <-> exists q, In q (c_post c) /\ c_invariant q = false).
      { rewrite NI. split; intros [q H]; exists q.
        - apply filter_In in H as [H1 H2]. split; [exact H1|now destruct (c_invariant q)].
        - apply filter_In. destruct H as [H1 H2]. rewrite H2. auto. }
      rewrite P. split.
      + intros [[H|[q [H1 H2]]]|H]; [now left| |right; now left]. right; right. exists q. auto.
      + intros [H|[H|[q [H1 H2]]]]; [left; now left|now right|left; right; eauto].
    - rewrite (NI _ (c_post c)). split.
      + intros [[H|[q H]]|H]; [now left| |right; now left]. right; right. exists q. split; [exact H|contradiction].
      + intros [H|[H|[q [H _]]]]; [left; now left|now right|left; right; eauto]. }
  intros n k. cbn [analyze_class]. fold ks. rewrite in_flat_map. split.
  - intros ((n' & c) & I & M). apply method_in in M as (-> & R & H & F). exists c.
    apply function_in in F as (ks' & c' & E & K & G & C). pose proof (kinds_fun _ _ _ _ (KF n') K) as <-.
    apply get_in in G; [|apply ND]. assert (c' = c) as ->.
    { pose proof (proj2 (get_in n' (methods ks) c (ND ks)) I) as A. apply get_in in G; [|apply ND]. congruence. }
    split; [exact I|]. split; [exact R|]. split; [exact E|]. split; [now apply HA|].
    exact C.
  - intros (c & I & R & E & H & C). exists (n, c). split; [exact I|]. apply method_in. split; [reflexivity|]. split; [exact R|].
    split; [now apply HA|]. apply function_in. exists ks, c. split; [exact E|]. split; [apply KF|].
    split; [apply get_in; [apply ND|exact I]|]. exact C.
Qed.
End D.
