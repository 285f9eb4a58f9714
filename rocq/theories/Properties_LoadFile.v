(** C175: checking a file checks the module in that file. *)
From Coq Require Import ZArith List Bool Lia.
From Verif Require Import LoadFile_Model LoadFile_Spec.
Import ListNotations.
Open Scope Z_scope.

Lemma name_eqb_eq : forall a b, name_eqb a b = true <-> a = b.
Proof.
  induction a as [|x a IH]; intros [|y b]; cbn [name_eqb]; try (split; [discriminate|discriminate]); [tauto|].
  rewrite andb_true_iff, Z.eqb_eq, IH. split; [intros [-> ->]; reflexivity|intro E; injection E as -> ->; split; reflexivity].
Qed.
Section Files.
Variable has_init found : path -> bool.

Lemma climb_ok : forall root, has_init root = false -> forall pk acc,
  (forall before c after, pk = before ++ c :: after -> has_init (c :: rev before ++ root) = true) ->
  climb has_init (rev pk ++ root) acc = (root, pk ++ acc).
Proof.
  intros root R pk. induction pk as [|c pk IH] using rev_ind; intros acc H.
  - cbn [rev app]. destruct root; cbn [climb]; [reflexivity|]. rewrite R. reflexivity.
  - rewrite rev_unit. cbn [app climb]. rewrite (H pk c [] eq_refl). rewrite IH.
    + rewrite <- app_assoc. reflexivity.
    + intros b d a E. apply (H b d (a ++ [c])). rewrite E, <- app_assoc. reflexivity.
Qed.
(** The directory and name found for a file of a project *)
Lemma extract_ok : forall root file names, in_project has_init root file names ->
  extract_module has_init (fun p => p) file = (root, names).
Proof.
  intros root file names (P & N & R & H). destruct file as [|stem dir].
  - exfalso. cbn in P. destruct (rev names) eqn:X; [|discriminate]. apply N. rewrite <- (rev_involutive names), X. reflexivity.
  - unfold extract_module. cbn [tl]. unfold init. destruct (Z.eqb_spec stem 0) as [->|S].
    + cbn [place] in P. subst dir. rewrite (climb_ok root R); [rewrite app_nil_r; reflexivity|].
      intros b c a E. apply (H b c a E). right. reflexivity.
    + assert (P' : stem :: dir = rev names ++ root) by (destruct stem; [contradiction|exact P|exact P]). clear P.
      destruct (exists_last N) as (pk & c & ->). rewrite rev_unit in P'. injection P' as -> ->.
      apply (climb_ok root R). intros b d a E. apply (H b d (a ++ [c])); [rewrite E, <- app_assoc; reflexivity|].
      left. destruct a; discriminate.
Qed.

(** What is in sys.modules is of other projects' names, or where it belongs *)
Definition belongs (foreign : Z -> Prop) (root : path) (ms : modules) : Prop :=
  forall n p, cached ms n = Some p -> foreign (hd 0 n) \/ p = rev n ++ root.
Lemma import_ok : forall foreign root rest done ms,
  belongs foreign root ms -> ~ foreign (hd 0 (done ++ rest)) ->
  (forall before c after, rest = before ++ c :: after -> found (c :: rev (done ++ before) ++ root) = true) ->
  exists ms', import_from found ms done (rev done ++ root) rest = Some (rev (done ++ rest) ++ root, ms') /\ belongs foreign root ms'.
Proof.
  intros foreign root rest. induction rest as [|c rest IH]; intros done ms B F H.
  - exists ms. split; [cbn [import_from]; rewrite app_nil_r; reflexivity|exact B].
  - cbn [import_from]. assert (Hd : hd 0 ((done ++ [c]) ++ rest) = hd 0 (done ++ [c])) by (destruct done; reflexivity).
    assert (A : done ++ c :: rest = (done ++ [c]) ++ rest) by (rewrite <- app_assoc; reflexivity).
    assert (L : c :: rev done ++ root = rev (done ++ [c]) ++ root) by (rewrite rev_unit; reflexivity).
    assert (H' : forall b d a, rest = b ++ d :: a -> found (d :: rev ((done ++ [c]) ++ b) ++ root) = true).
    { intros b d a E. rewrite <- app_assoc. apply (H (c :: b) d a). rewrite E. reflexivity. }
    destruct (cached ms (done ++ [c])) as [p|] eqn:C.
    + destruct (B _ _ C) as [X|X]; [exfalso; apply F; rewrite A, Hd; exact X|]. rewrite X, A.
      apply IH; [exact B|rewrite <- A; exact F|exact H'].
    + pose proof (H [] c rest eq_refl) as Fo. rewrite app_nil_r in Fo. rewrite Fo, L, A. apply IH.
      * intros n p E. cbn [cached] in E. destruct (name_eqb (done ++ [c]) n) eqn:X; [|exact (B n p E)].
        apply name_eqb_eq in X as <-. injection E as <-. right. reflexivity.
      * rewrite <- A. exact F.
      * exact H'.
Qed.

(** A module is there for each package of a file's name and for the file *)
Definition all_found (root : path) (names : list Z) : Prop :=
  forall before c after, names = before ++ c :: after -> found (c :: rev before ++ root) = true.

(** Files of one project, none of whose top-level names is that of a module loaded before: each
    gives its own module, in any order and number. *)
Theorem C175_project_partial : forall root (files : list (path * list Z)) ms,
  (forall f, In f files -> in_project has_init root (fst f) (snd f) /\ all_found root (snd f) /\
     forall n p, cached ms n = Some p -> hd 0 n <> hd 0 (snd f)) ->
  load_files has_init found (fun p => p) ms (map fst files) = Some (map (fun f => place (fst f)) files).
Proof.
  intros root files ms H. set (foreign := fun z => exists n p, cached ms n = Some p /\ hd 0 n = z).
  assert (G : forall f, In f files -> in_project has_init root (fst f) (snd f) /\ all_found root (snd f) /\ ~ foreign (hd 0 (snd f))).
  { intros f I. destruct (H f I) as (P & A & N). split; [exact P|]. split; [exact A|]. intros (n & p & C & E). exact (N n p C E). }
  assert (B : belongs foreign root ms) by (intros n p C; left; exists n, p; split; [exact C|reflexivity]).
  clearbody foreign. clear H. revert ms B. induction files as [|[file names] files IH]; intros ms B; [reflexivity|].
  destruct (G _ (or_introl eq_refl)) as (P & A & N). cbn [fst snd map load_files] in *. unfold load_file.
  rewrite (extract_ok _ _ _ P). destruct P as (Pl & Ne & _).
  destruct (import_ok foreign root names [] ms B N A) as (ms' & E & B'). cbn [rev app] in E.
  destruct names as [|c names]; [contradiction|]. rewrite E, IH; [rewrite Pl; reflexivity|exact (fun f I => G f (or_intror I))|exact B'].
Qed.
End Files.
Print Assumptions C175_project_partial.

(** p/__init__.py, p/m.py and p/q/n.py in the directory 9 *)
Definition sample_init (p : path) : bool := name_eqb p [1; 9] || name_eqb p [3; 1; 9].
Definition sample_found (p : path) : bool := sample_init p || name_eqb p [2; 1; 9] || name_eqb p [4; 3; 1; 9].
Definition sample_files : list (path * list Z) := [([0; 1; 9], [1]); ([2; 1; 9], [1; 2]); ([4; 3; 1; 9], [1; 3; 4])].
Example C175_example :
  (forall f, In f sample_files -> in_project sample_init [9] (fst f) (snd f) /\ all_found sample_found [9] (snd f) /\
     forall n p, cached [([7], [8])] n = Some p -> hd 0 n <> hd 0 (snd f)) /\
  load_files sample_init sample_found (fun p => p) [([7], [8])] (map fst sample_files) = Some [[1; 9]; [2; 1; 9]; [4; 3; 1; 9]].
Proof.
  split; [|reflexivity]. intros f I.
  assert (S : forall A (b : list A) c a l, l = b ++ c :: a -> (length b < length l)%nat /\ nth_error l (length b) = Some c /\ firstn (length b) l = b /\ skipn (S (length b)) l = a).
  { intros A b. induction b as [|x b IH]; intros c a l ->; cbn; [repeat split; lia|].
    destruct (IH c a _ eq_refl) as (L & N & Fi & Sk). repeat split; [lia|exact N|f_equal; exact Fi|exact Sk]. }
  assert (Fo : forall n p, cached [([7], [8])] n = Some p -> hd 0 n = 7).
  { intros n p E. cbn [cached] in E. destruct (name_eqb [7] n) eqn:X; [|discriminate]. apply name_eqb_eq in X as <-. reflexivity. }
  destruct I as [<-|[<-|[<-|[]]]]; cbn [fst snd];
    (split; [split; [reflexivity|split; [discriminate|split; [reflexivity|]]]|split; [|intros n p E; rewrite (Fo n p E); discriminate]]);
    intros b c a E; destruct (S _ _ _ _ _ E) as (L & N & Fi & Sk);
    destruct b as [|b1 [|b2 [|b3 b]]]; cbn in L, N, Fi, Sk; try lia; try (injection N as <-);
    try (injection Fi as <-); try (injection Fi as <- <-); subst; try reflexivity; intros [X|X]; try contradiction; try discriminate; reflexivity.
Qed.

(** Refuted: of two files with the same name in two directories the second gives the first's
    module, *)
Theorem C175_same_name_refuted : exists has_init found root1 root2 f1 f2 names,
  in_project has_init root1 f1 names /\ in_project has_init root2 f2 names /\
  all_found found root1 names /\ all_found found root2 names /\ f1 <> f2 /\
  load_files has_init found (fun p => p) [] [f1; f2] = Some [place f1; place f1] /\ place f1 <> place f2.
Proof.
  exists (fun _ => false), (fun _ => true), [8], [9], [1; 8], [1; 9], [1].
  assert (P : forall r, in_project (fun _ => false) [r] [1; r] [1]).
  { intro r. split; [reflexivity|]. split; [discriminate|]. split; [reflexivity|].
    intros [|x b] c a E [X|X]; try discriminate; injection E; intros; subst; try contradiction; destruct b; discriminate. }
  split; [apply P|]. split; [apply P|]. split; [intros b c a _; reflexivity|]. split; [intros b c a _; reflexivity|].
  split; [discriminate|]. split; [reflexivity|discriminate].
Qed.
Print Assumptions C175_same_name_refuted.
(** a file with the name of a module that is loaded gives that module, *)
Theorem C175_loaded_refuted : exists has_init found root file names ms,
  in_project has_init root file names /\ all_found found root names /\
  load_files has_init found (fun p => p) ms [file] = Some [[1; 5]] /\ place file <> [1; 5].
Proof.
  exists (fun _ => false), (fun _ => true), [9], [1; 9], [1], [([1], [1; 5])].
  split; [|split; [intros b c a _; reflexivity|split; [reflexivity|discriminate]]].
  split; [reflexivity|]. split; [discriminate|]. split; [reflexivity|].
  intros [|x b] c a E [X|X]; try discriminate; injection E; intros; subst; try contradiction; destruct b; discriminate.
Qed.
Print Assumptions C175_loaded_refuted.
(** and a link to a file in another directory, under another name, is looked for there under
    the link's name. *)
Theorem C175_link_refuted : exists has_init found real_path file,
  found (place file) = true /\ found (real_path file) = true /\ load_files has_init found real_path [] [file] = None.
Proof.
  exists (fun _ => false), (fun p => name_eqb p [1; 9] || name_eqb p [2; 8]), (fun p => if name_eqb p [1; 9] then [2; 8] else p), [1; 9].
  split; [reflexivity|]. split; reflexivity.
Qed.
Print Assumptions C175_link_refuted.
