(** C178: the names in generated tests stand for the objects they were printed for. *)
From Coq Require Import String List Bool.
From Verif Require Import Pytest_Model TestRefs_Model TestRefs_Spec.
Import ListNotations.
Open Scope string_scope.

Section Proofs.
Variable builtin : string -> bool.
Variable sorted : list stmt -> list stmt.
Hypothesis sorted_same : forall l x, In x (sorted l) <-> In x l.

Definition binds (s : stmt) (n : string) : option thing :=
  match s with
  | From m x => if String.eqb x n then Some (Named m x) else None
  | Import x => if String.eqb x n then Some (Module x) else None
  end.
Lemma bound_step : forall s l n d, bound (s :: l) n d = bound l n (match binds s n with Some t => Some t | None => d end).
Proof. intros [m x|x] l n d; cbn [bound binds]; destruct (String.eqb x n); reflexivity. Qed.
Lemma bound_only : forall t n l d, (forall s u, In s l -> binds s n = Some u -> u = t) ->
  (exists s, In s l /\ binds s n = Some t) \/ d = Some t -> bound l n d = Some t.
Proof.
  intros t n. induction l as [|s l IH]; intros d H E.
  - destruct E as [[s [[] _]]|E]. exact E.
  - rewrite bound_step. apply IH; [intros x u X; apply H; right; exact X|].
    destruct (binds s n) as [u|] eqn:B.
    + right. rewrite (H s u (or_introl eq_refl) B). reflexivity.
    + destruct E as [[x [[X|X] Y]]|E]; [subst x; congruence|left; eauto|right; exact E].
Qed.
Lemma bound_none : forall n l, (forall s, In s l -> binds s n = None) -> bound l n None = None.
Proof.
  intros n. induction l as [|s l IH]; intro H; [reflexivity|]. rewrite bound_step, (H s (or_introl eq_refl)).
  apply IH. intros x X. apply H. right. exact X.
Qed.

(** All references in a file: of the functions and of the paths *)
Definition referenced (cs : list cover) (r : ref) : Prop :=
  exists c, In c cs /\ (r = fn c \/ exists p, In p (paths c) /\ In r (references p)).
Definition raised (cs : list cover) (r : ref) : Prop :=
  exists c p, In c cs /\ In p (paths c) /\ exc p = Some r.
(** A name that can be written: not empty, not inside a function; and what is said to be in builtins
    has its name there *)
Definition writable (r : ref) : Prop :=
  qualname r <> [] /\ ~ In "<locals>" (qualname r) /\ (modulename r = "builtins" -> builtin (head (qualname r)) = true).

Lemma in_statements : forall rs s, In s (import_statements rs) <->
  exists r, In r rs /\ modulename r <> "builtins" /\ s = From (modulename r) (head (qualname r)).
Proof.
  intros rs s. unfold import_statements. rewrite in_flat_map. split.
  - intros [r [I S']]. exists r. split; [exact I|]. unfold import_statement in S'.
    destruct (String.eqb_spec (modulename r) "builtins") as [E|E]; [destruct S'|]. split; [exact E|].
    destruct (qualname r) as [|a [|b q]]; destruct S' as [S'|[]]; symmetry; exact S'.
  - intros [r [I [N ->]]]. exists r. split; [exact I|]. unfold import_statement.
    destruct (String.eqb_spec (modulename r) "builtins") as [E|E]; [contradiction|].
    destruct (qualname r) as [|a [|b q]]; left; reflexivity.
Qed.
Lemma in_imports : forall cs s, In s (file_imports sorted cs) <->
  (s = Import "pytest" /\ exists r, raised cs r) \/
  (exists r, referenced cs r /\ modulename r <> "builtins" /\ s = From (modulename r) (head (qualname r))).
Proof.
  intros cs s. unfold file_imports. rewrite sorted_same, in_flat_map. split.
  - intros [c [C I]]. unfold imports_of in I. apply in_app_iff in I. destruct I as [I|I].
    + left. destruct (existsb raises (paths c)) eqn:E; [|destruct I]. destruct I as [<-|[]]. split; [reflexivity|].
      apply existsb_exists in E. destruct E as [p [P E]]. unfold raises in E. destruct (exc p) as [r|] eqn:X; [|discriminate].
      exists r, c, p. auto.
    + right. apply in_statements in I. destruct I as [r [R I]]. exists r. split; [|exact I].
      exists c. split; [exact C|]. destruct R as [R|R]; [left; congruence|right]. apply in_flat_map in R. exact R.
  - intros [[-> [r [c [p [C [P X]]]]]]|[r [[c [C R]] I]]]; exists c; (split; [exact C|]); unfold imports_of; apply in_app_iff.
    + left. assert (E : existsb raises (paths c) = true) by (apply existsb_exists; exists p; split; [exact P|unfold raises; rewrite X; reflexivity]).
      rewrite E. left. reflexivity.
    + right. apply in_statements. exists r. split; [|exact I]. destruct R as [R|R]; [left; congruence|right].
      apply in_flat_map. exact R.
Qed.

(** References whose names begin alike are in the same module, none begins with pytest or the name
    of a test, and the exceptions are builtins or are referenced too, and are not inside classes:
    then all names stand for what they were printed for. *)
Theorem C178_names_partial : forall cs,
  (forall r, referenced cs r \/ raised cs r -> writable r) ->
  (forall a b, referenced cs a \/ raised cs a -> referenced cs b \/ raised cs b ->
     head (qualname a) = head (qualname b) -> modulename a = modulename b) ->
  (forall r, referenced cs r \/ raised cs r -> head (qualname r) <> "pytest" /\ ~ In (head (qualname r)) (file_tests cs)) ->
  ~ In "pytest" (file_tests cs) ->
  (forall r, raised cs r -> length (qualname r) = 1 /\ (modulename r = "builtins" \/ referenced cs r)) ->
  forall q r, In (q, r) (file_printed cs) -> means builtin (file_imports sorted cs) (file_tests cs) q = Some r.
Proof.
  intros cs W Same Free NoPy Exc.
  assert (Glob : forall n, ~ In n (file_tests cs) -> global (file_imports sorted cs) (file_tests cs) n = bound (file_imports sorted cs) n None).
  { intros n N. unfold global. destruct (existsb (String.eqb n) (file_tests cs)) eqn:E; [|reflexivity].
    apply existsb_exists in E. destruct E as [x [X Y]]. apply String.eqb_eq in Y. subst x. contradiction. }
  assert (Loc : forall q, ~ In "<locals>" q -> existsb (String.eqb "<locals>") q = false).
  { intros q N. destruct (existsb (String.eqb "<locals>") q) eqn:E; [|reflexivity].
    apply existsb_exists in E. destruct E as [x [X Y]]. apply String.eqb_eq in Y. subst x. contradiction. }
  assert (Main : forall r, (referenced cs r \/ (raised cs r /\ modulename r = "builtins")) ->
    means builtin (file_imports sorted cs) (file_tests cs) (qualname r) = Some r).
  { intros r R. assert (R' : referenced cs r \/ raised cs r) by tauto.
    destruct (W r R') as [NE [NL BI]]. destruct (Free r R') as [F1 F2].
    destruct r as [m q]. cbn [qualname modulename] in *. destruct q as [|a q]; [contradiction|].
    unfold means. rewrite (Loc _ NL). cbn [head] in *. rewrite (Glob a F2).
    destruct (String.eqb_spec m "builtins") as [->|N].
    - rewrite bound_none; [rewrite BI; reflexivity|]. intros s I. apply in_imports in I.
      destruct I as [[-> _]|[x [X [XN ->]]]]; cbn [binds].
      + destruct (String.eqb_spec "pytest" a); congruence.
      + destruct (String.eqb_spec (head (qualname x)) a) as [E|]; [|reflexivity].
        exfalso. apply XN. apply (Same x (Ref "builtins" (a :: q)) (or_introl X) R'). exact E.
    - rewrite (bound_only (Named m a)); [reflexivity| |left].
      + intros s u I. apply in_imports in I. destruct I as [[-> _]|[x [X [XN ->]]]]; cbn [binds].
        * destruct (String.eqb_spec "pytest" a); congruence.
        * destruct (String.eqb_spec (head (qualname x)) a) as [E|]; [|discriminate]. intro U. injection U as <-.
          rewrite E. rewrite (Same x (Ref m (a :: q)) (or_introl X) R' E). reflexivity.
      + exists (From m a). split; [|cbn [binds]; rewrite String.eqb_refl; reflexivity].
        apply in_imports. right. exists (Ref m (a :: q)). destruct R as [R|[_ R]]; [|contradiction]. auto. }
  intros q r I. unfold file_printed in I. apply in_flat_map in I. destruct I as [c [C I]].
  unfold printed in I. apply in_flat_map in I. destruct I as [p [P I]]. destruct I as [I|I].
  - injection I as <- <-. apply Main. left. exists c. auto.
  - apply in_app_iff in I. destruct I as [I|I].
    + apply in_map_iff in I. destruct I as [x [E X]]. injection E as <- <-. apply Main. left. exists c. split; [exact C|]. right. eauto.
    + destruct (exc p) as [e|] eqn:X; [|destruct I]. assert (RE : raised cs e) by (exists c, p; auto).
      destruct I as [I|[I|[]]]; injection I as <- <-.
      * destruct (Exc e RE) as [L K]. assert (N : name_of_type e = qualname e).
        { unfold name_of_type. destruct (qualname e) as [|a [|b l]]; try discriminate L. reflexivity. }
        rewrite N. apply Main. destruct K as [K|K]; auto.
      * unfold means. rewrite (Loc ["pytest"; "raises"]) by (intros [Y|[Y|[]]]; discriminate).
        rewrite (Glob _ NoPy), (bound_only (Module "pytest")); [reflexivity| |left].
        -- intros s u J. apply in_imports in J. destruct J as [[-> _]|[x [X' [XN ->]]]]; cbn [binds].
           ++ rewrite String.eqb_refl. congruence.
           ++ destruct (String.eqb_spec (head (qualname x)) "pytest") as [E|]; [|discriminate].
              exfalso. apply (proj1 (Free x (or_introl X'))). exact E.
        -- exists (Import "pytest"). split; [|reflexivity]. apply in_imports. left. eauto.
Qed.
End Proofs.
Print Assumptions C178_names_partial.

(** shop.Train.paint with shop.Color.RED, raising ValueError, and list *)
Definition names_of_builtins (n : string) : bool := existsb (String.eqb n) ["list"; "ValueError"; "Exception"].
Definition sample : list cover :=
  [Cover (Ref "shop" ["Train"; "paint"])
     [Path [Ref "shop" ["Color"; "RED"]; Ref "builtins" ["list"]] None; Path [] (Some (Ref "builtins" ["ValueError"]))]].
Example C178_names_example :
  (forall r, referenced sample r \/ raised sample r -> writable names_of_builtins r) /\
  (forall a b, referenced sample a \/ raised sample a -> referenced sample b \/ raised sample b ->
     head (qualname a) = head (qualname b) -> modulename a = modulename b) /\
  (forall r, referenced sample r \/ raised sample r -> head (qualname r) <> "pytest" /\ ~ In (head (qualname r)) (file_tests sample)) /\
  ~ In "pytest" (file_tests sample) /\
  (forall r, raised sample r -> length (qualname r) = 1 /\ (modulename r = "builtins" \/ referenced sample r)) /\
  file_imports (fun l => l) sample = [Import "pytest"; From "shop" "Train"; From "shop" "Color"] /\
  file_tests sample = ["test_Train_paint"; "test_Train_paint_2"].
Proof.
  assert (A : forall r, referenced sample r \/ raised sample r ->
    In r [Ref "shop" ["Train"; "paint"]; Ref "shop" ["Color"; "RED"]; Ref "builtins" ["list"]; Ref "builtins" ["ValueError"]]).
  { intros r [[c [[<-|[]] [->|[p [[<-|[<-|[]]] I]]]]]|[c [p [[<-|[]] [[<-|[<-|[]]] X]]]]]; cbn in *; try tauto; try discriminate.
    injection X as <-. tauto. }
  split; [|split; [|split; [|split; [|split; [|split; reflexivity]]]]].
  - intros r R. apply A in R. destruct R as [<-|[<-|[<-|[<-|[]]]]]; (split; [discriminate|split]); cbn; try congruence; intuition discriminate.
  - intros a b Ha Hb. apply A in Ha. apply A in Hb.
    destruct Ha as [<-|[<-|[<-|[<-|[]]]]]; destruct Hb as [<-|[<-|[<-|[<-|[]]]]]; cbn; congruence.
  - intros r R. apply A in R. destruct R as [<-|[<-|[<-|[<-|[]]]]]; (split; [discriminate|]); cbn; intuition discriminate.
  - cbn. intuition discriminate.
  - intros r [c [p [[<-|[]] [[<-|[<-|[]]] X]]]]; cbn in X; [discriminate|]. injection X as <-. split; [reflexivity|left; reflexivity].
Qed.

(** Refuted: an exception class of the program is not imported *)
Theorem C178_exception_refuted : exists cs q r, forall sorted, (forall l x, In x (sorted l) <-> In x l) ->
  In (q, r) (file_printed cs) /\ means names_of_builtins (file_imports sorted cs) (file_tests cs) q = None.
Proof.
  exists [Cover (Ref "shop" ["buy"]) [Path [] (Some (Ref "shop" ["SoldOut"]))]], ["SoldOut"], (Ref "shop" ["SoldOut"]).
  intros sorted H. split; [right; left; reflexivity|]. unfold means.
  change (existsb (String.eqb "<locals>") ["SoldOut"]) with false. cbn iota. unfold global.
  change (existsb (String.eqb "SoldOut") (file_tests [Cover (Ref "shop" ["buy"]) [Path [] (Some (Ref "shop" ["SoldOut"]))]])) with false.
  cbn iota. rewrite bound_none; [reflexivity|]. intros s I. unfold file_imports in I. apply (proj1 (H _ _)) in I. cbn in I.
  destruct I as [<-|[<-|[]]]; reflexivity.
Qed.
Print Assumptions C178_exception_refuted.
(** Refuted: of two classes with the same name in different modules, one stands for the other *)
Theorem C178_clash_refuted : exists cs, forall sorted, (forall l x, In x (sorted l) <-> In x l) ->
  exists q r other, In (q, r) (file_printed cs) /\ r <> other /\
  means names_of_builtins (file_imports sorted cs) (file_tests cs) q = Some other.
Proof.
  exists [Cover (Ref "shop" ["buy"]) [Path [Ref "shop" ["Color"]; Ref "paint" ["Color"]] None]].
  set (cs := [Cover (Ref "shop" ["buy"]) [Path [Ref "shop" ["Color"]; Ref "paint" ["Color"]] None]]).
  intros sorted H.
  assert (B : bound (file_imports sorted cs) "Color" None = Some (Named "shop" "Color") \/
              bound (file_imports sorted cs) "Color" None = Some (Named "paint" "Color")).
  { assert (S1 : forall s, In s (file_imports sorted cs) -> s = From "shop" "buy" \/ s = From "shop" "Color" \/ s = From "paint" "Color").
    { intros s I. apply (proj1 (H _ _)) in I. cbn in I. destruct I as [<-|[<-|[<-|[]]]]; tauto. }
    assert (S2 : In (From "shop" "Color") (file_imports sorted cs)) by (apply (proj2 (H _ _)); right; left; reflexivity).
    generalize dependent (file_imports sorted cs). intros l S1 S2.
    enough (G : forall d, (d = Some (Named "shop" "Color") \/ d = Some (Named "paint" "Color")) \/ In (From "shop" "Color") l ->
      bound l "Color" d = Some (Named "shop" "Color") \/ bound l "Color" d = Some (Named "paint" "Color")) by (apply G; right; exact S2).
    clear S2. induction l as [|s l IH]; intros d D; [destruct D as [D|[]]; exact D|].
    rewrite bound_step. apply IH; [intros x X; apply S1; right; exact X|].
    destruct (S1 s (or_introl eq_refl)) as [E|[E|E]]; subst s; cbn.
    - destruct D as [D|[D|D]]; [left; exact D|discriminate|right; exact D].
    - left. left. reflexivity.
    - left. right. reflexivity. }
  destruct B as [B|B].
  - exists ["Color"], (Ref "paint" ["Color"]), (Ref "shop" ["Color"]). split; [right; right; left; reflexivity|]. split; [discriminate|].
    unfold means, global. change (existsb (String.eqb "<locals>") ["Color"]) with false.
    change (existsb (String.eqb "Color") (file_tests cs)) with false. cbn iota. rewrite B. reflexivity.
  - exists ["Color"], (Ref "shop" ["Color"]), (Ref "paint" ["Color"]). split; [right; left; reflexivity|]. split; [discriminate|].
    unfold means, global. change (existsb (String.eqb "<locals>") ["Color"]) with false.
    change (existsb (String.eqb "Color") (file_tests cs)) with false. cbn iota. rewrite B. reflexivity.
Qed.
Print Assumptions C178_clash_refuted.
(** Refuted: a type that says it is in builtins and has no name there, like that of None *)
Theorem C178_hidden_refuted : exists cs q r, forall sorted, (forall l x, In x (sorted l) <-> In x l) ->
  In (q, r) (file_printed cs) /\ means names_of_builtins (file_imports sorted cs) (file_tests cs) q = None.
Proof.
  exists [Cover (Ref "shop" ["buy"]) [Path [Ref "builtins" ["NoneType"]] None]], ["NoneType"], (Ref "builtins" ["NoneType"]).
  intros sorted H. split; [right; left; reflexivity|]. unfold means, global.
  change (existsb (String.eqb "<locals>") ["NoneType"]) with false.
  change (existsb (String.eqb "NoneType") (file_tests [Cover (Ref "shop" ["buy"]) [Path [Ref "builtins" ["NoneType"]] None]])) with false.
  cbn iota. rewrite bound_none; [reflexivity|]. intros s I. unfold file_imports in I. apply (proj1 (H _ _)) in I. cbn in I.
  destruct I as [<-|[]]; reflexivity.
Qed.
Print Assumptions C178_hidden_refuted.
(** Refuted: a test hides a function that has the test's name *)
Theorem C178_test_refuted : exists cs q r, forall sorted, (forall l x, In x (sorted l) <-> In x l) ->
  In (q, r) (file_printed cs) /\ global (file_imports sorted cs) (file_tests cs) (head q) = Some (Test (head q)).
Proof.
  exists [Cover (Ref "shop" ["buy"]) [Path [] None]; Cover (Ref "shop" ["test_buy"]) [Path [] None]], ["test_buy"], (Ref "shop" ["test_buy"]).
  intros sorted H. split; [right; left; reflexivity|]. reflexivity.
Qed.
Print Assumptions C178_test_refuted.
