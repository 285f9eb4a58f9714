(** C160: verbose reports. *)
From Coq Require Import String List Bool Ascii Arith ZArith Lia.
From Verif Require Import Cli_Model Verbose_Model Verbose_Spec.
From Verif Require Properties_Noise.
Import ListNotations.
Open Scope string_scope.
Open Scope list_scope.
Open Scope nat_scope.

Lemma app_assoc_s : forall a b c : string, ((a ++ b) ++ c)%string = (a ++ b ++ c)%string.
Proof. induction a as [|x a IH]; intros b c; cbn [append]; [reflexivity|rewrite IH; reflexivity]. Qed.

(** The same messages are printed in both forms, one text for each, and the exit status
    is the same: with everything reported all of them, otherwise the problems. *)
Lemma described : forall show v ra file m,
  (exists t, describe show v ra file m = Some t) <-> (ra = true \/ is_problem_state (r_state m) = true).
Proof.
  intros show v ra file m. unfold describe, long_describe, short_text.
  destruct (r_state m), ra, v; cbn; split; intros H;
    try (left; reflexivity); try (right; reflexivity); try (eexists; reflexivity);
    try (destruct H as [t H]; discriminate); destruct H; discriminate.
Qed.

Theorem C160_same_messages : forall show v ra file ms out p,
  check_loop show v ra file ms false = (out, p) ->
  length out = length (filter (fun m => ra || is_problem_state (r_state m)) ms) /\
  (p = true <-> exists m, In m ms /\ is_problem_state (r_state m) = true).
Proof.
  intros show v ra file ms.
  assert (G : forall any out p, check_loop show v ra file ms any = (out, p) ->
    length out = length (filter (fun m => ra || is_problem_state (r_state m)) ms) /\
    (p = true <-> any = true \/ exists m, In m ms /\ is_problem_state (r_state m) = true)).
  { induction ms as [|m ms IH]; intros any out p H; cbn [check_loop filter] in *.
    - injection H as <- <-. split; [reflexivity|]. split; [intros ->; left; reflexivity|].
      intros [H|[m [[] _]]]. exact H.
    - pose proof (described show v ra file m) as D.
      destruct (describe show v ra file m) as [t|].
      + destruct (proj1 D (ex_intro _ t eq_refl)) as [E|E].
        * destruct (check_loop show v ra file ms _) as [o q] eqn:E'. injection H as <- <-.
          destruct (IH _ _ _ E') as [L P]. rewrite E. cbn [orb length]. rewrite L, E.
          split; [reflexivity|]. rewrite P. split.
          -- intros [X|[m' [I X]]]; [|right; exists m'; split; [right; exact I|exact X]].
             destruct (r_state m) eqn:S; cbn in X; try (left; exact X);
               right; exists m; (split; [left; reflexivity|rewrite S; reflexivity]).
          -- intros [->|[m' [[<-|I] X]]].
             ++ left. destruct (level PRE_UNSAT <? level (r_state m))%Z; reflexivity.
             ++ left. destruct (r_state m); try discriminate; reflexivity.
             ++ right. exists m'. split; [exact I|exact X].
        * destruct (check_loop show v ra file ms _) as [o q] eqn:E'. injection H as <- <-.
          destruct (IH _ _ _ E') as [L P]. rewrite E, orb_true_r. cbn [length]. rewrite L.
          split; [reflexivity|]. rewrite P. split.
          -- intros _. right. exists m. split; [left; reflexivity|exact E].
          -- intros _. left. destruct (r_state m); try discriminate; reflexivity.
      + assert (N : ra = false /\ is_problem_state (r_state m) = false).
        { destruct ra, (is_problem_state (r_state m)); split; try reflexivity;
            exfalso; destruct (proj2 D) as [t E]; try discriminate; try (left; reflexivity); right; reflexivity. }
        destruct N as [N1 N2]. destruct (IH _ _ _ H) as [L P]. rewrite N1, N2 in *. cbn [orb].
        split; [exact L|]. rewrite P. split.
        * intros [X|[m' [I X]]]; [left; exact X|right; exists m'; split; [right; exact I|exact X]].
        * intros [X|[m' [[<-|I] X]]]; [left; exact X|congruence|right; exists m'; split; [exact I|exact X]]. }
  intros out p H. destruct (G _ _ _ H) as [L P]. split; [exact L|]. rewrite P.
  split; [intros [X|X]; [discriminate|exact X]|right; assumption].
Qed.
Print Assumptions C160_same_messages.
Example C160_same_messages_example : forall show file,
  let m := mkReport POST_FAIL "false when calling f(1)" "a.py" 3 "" in
  let i := mkReport CANNOT_CONFIRM "Not confirmed." "a.py" 9 "" in
  length (fst (check_loop show true false file [i; m] false)) = 1 /\
  length (fst (check_loop show false true file [i; m] false)) = 2 /\
  snd (check_loop show true false file [i; m] false) = true /\
  snd (check_loop show true true file [i] false) = false.
Proof. intros show file. cbn. repeat split. Qed.

(** The context is made of the lines at most three away from the reported one, in the
    order of the file, and only the reported one is marked. *)
Lemma concat_app : forall l m,
  String.concat "" (l ++ m) = (String.concat "" l ++ String.concat "" m)%string.
Proof.
  assert (C : forall x l, String.concat "" (x :: l) = (x ++ String.concat "" l)%string).
  { intros x [|y l]; cbn [String.concat]; [|reflexivity].
    induction x as [|c x IH]; cbn [append]; [reflexivity|rewrite <- IH at 1; reflexivity]. }
  induction l as [|x l IH]; intros m; [reflexivity|].
  change ((x :: l) ++ m) with (x :: (l ++ m)). rewrite !C, IH. symmetry. apply app_assoc_s.
Qed.

Lemma concat_cons : forall x l, String.concat "" (x :: l) = (x ++ String.concat "" l)%string.
Proof.
  intros x [|y l]; cbn [String.concat]; [|reflexivity].
  induction x as [|c x IH]; cbn [append]; [reflexivity|rewrite <- IH at 1; reflexivity].
Qed.

Definition mark (l : nat) (p : nat * string) : string :=
  if l =? fst p then (">" ++ WARNING ++ snd p ++ ENDC)%string else ("|" ++ snd p)%string.

(** Lines from [a] on: those of the file up to [b], then nothing. *)
Lemma context_lines : forall n file l a k,
  (forall t, In t file -> t <> "") ->
  (forall j, getline file (S k + j) = nth j (skipn k file) "") ->
  True ->
  a = S k ->
  String.concat "" (map (context_line file l) (seq a n)) =
  String.concat "" (map (mark l) (combine (seq a n) (firstn n (skipn k file)))).
Proof.
  induction n as [|n IH]; intros file l a k NE G _ ->; [reflexivity|].
  cbn [seq map]. rewrite concat_cons.
  pose proof (G 0) as G0. rewrite Nat.add_0_r in G0.
  destruct (skipn k file) as [|x r] eqn:E.
  - assert (Z : forall j, context_line file l (S k + j) = "").
    { intros j. unfold context_line. rewrite G. destruct j; reflexivity. }
    cbn [firstn combine map String.concat].
    assert (W : forall m b, (exists j, b = S k + j) ->
      String.concat "" (map (context_line file l) (seq b m)) = "").
    { induction m as [|m IHm]; intros b [j ->]; [reflexivity|]. cbn [seq map].
      rewrite concat_cons, Z. cbn [append]. apply IHm. exists (S j). lia. }
    rewrite (W n (S (S k))); [|exists 1; lia]. pose proof (Z 0) as Z0.
    rewrite Nat.add_0_r in Z0. rewrite Z0. reflexivity.
  - cbn [firstn combine map]. rewrite concat_cons.
    assert (E' : skipn (S k) file = r).
    { clear - E. revert k E.
      induction file as [|y f IHf]; intros k E; [destruct k; discriminate|].
      destruct k as [|k]; [cbn [skipn] in E; injection E as _ <-; reflexivity|]. exact (IHf k E). }
    rewrite <- E'. rewrite (IH file l (S (S k)) (S k) NE); [|intros j; specialize (G (S j)); rewrite E'; cbn [nth] in G; rewrite <- G; f_equal; lia|exact I|reflexivity].
    f_equal. cbn [nth] in G0. unfold context_line, mark. cbn [fst snd]. rewrite G0.
    destruct (String.eqb_spec x "") as [X|X].
    + exfalso. apply (NE x); [|exact X]. clear - E. revert k E.
      induction file as [|y f IHf]; intros k E; [destruct k; discriminate|].
      destruct k as [|k]; cbn [skipn] in E; [left; congruence|right; exact (IHf k E)].
    + destruct (l =? S k); reflexivity.
Qed.

Lemma near_window : forall file l k,
  filter (near l) (combine (seq (S k) (length file)) file) =
  let first := Nat.max 1 (l - 3) in
  combine (seq (Nat.max (S k) first) (l + 3 + 1 - Nat.max (S k) first))
    (firstn (l + 3 + 1 - Nat.max (S k) first) (skipn (Nat.max (S k) first - S k) file)).
Proof.
  induction file as [|x file IH]; intros l k; cbn zeta.
  - cbn [length seq combine filter]. rewrite skipn_nil, firstn_nil.
    destruct (seq _ _); reflexivity.
  - cbn [length seq combine filter]. rewrite (IH l (S k)). cbn zeta.
    unfold near at 1. cbn [fst].
    destruct (Nat.leb_spec (S k) (l + 3)) as [A|A]; destruct (Nat.leb_spec l (S k + 3)) as [B|B]; cbn [andb].
    + replace (Nat.max (S k) (Nat.max 1 (l - 3))) with (S k) by lia.
      replace (Nat.max (S (S k)) (Nat.max 1 (l - 3))) with (S (S k)) by lia.
      replace (l + 3 + 1 - S k) with (S (l + 3 + 1 - S (S k))) by lia.
      rewrite !Nat.sub_diag. cbn [skipn seq firstn combine]. reflexivity.
    + replace (Nat.max (S k) (Nat.max 1 (l - 3))) with (l - 3) by lia.
      replace (Nat.max (S (S k)) (Nat.max 1 (l - 3))) with (l - 3) by lia.
      replace (l - 3 - S k) with (S (l - 3 - S (S k))) by lia. cbn [skipn]. reflexivity.
    + replace (l + 3 + 1 - Nat.max (S k) (Nat.max 1 (l - 3))) with 0 by lia.
      replace (l + 3 + 1 - Nat.max (S (S k)) (Nat.max 1 (l - 3))) with 0 by lia. reflexivity.
    + lia.
Qed.

Theorem C160_context : forall show filename file l,
  (forall t, In t file -> t <> "") ->
  src_context show filename file l =
  (filename ++ ":" ++ show l ++ ":" ++ newline ++
   String.concat "" (map (mark l) (filter (near l) (numbered file))))%string.
Proof.
  intros show filename file l NE. unfold src_context, numbered. rewrite concat_cons, !app_assoc_s.
  do 4 f_equal. f_equal.
  pose proof (near_window file l 0) as W. cbn zeta in W.
  replace (Nat.max 1 (Nat.max 1 (l - 3))) with (Nat.max 1 (l - 3)) in W by lia. rewrite W.
  apply context_lines; [exact NE| |exact I|lia].
  intros j. replace (S (Nat.max 1 (l - 3) - 1) + j) with (S (Nat.max 1 (l - 3) - 1 + j)) by lia.
  cbn [getline]. clear. generalize (Nat.max 1 (l - 3) - 1). intros k. revert k.
  induction file as [|x f IH]; intros k; [rewrite skipn_nil; destruct (k + j), j; reflexivity|].
  destruct k; [reflexivity|]. apply IH.
Qed.
Print Assumptions C160_context.
Example C160_context_example : forall show,
  filter (near 2) (numbered ["a"; "b"; "c"; "d"; "e"; "f"]) =
    [(1, "a"); (2, "b"); (3, "c"); (4, "d"); (5, "e")] /\
  src_context show "x.py" [("def f():" ++ newline)%string; ("  pass" ++ newline)%string] 2 =
  ("x.py:" ++ show 2 ++ ":" ++ newline ++ "|def f():" ++ newline ++ ">" ++ WARNING ++ "  pass" ++ newline ++ ENDC)%string.
Proof.
  intros show. split; [reflexivity|].
  rewrite C160_context; [|intros t [<-|[<-|[]]]; discriminate]. reflexivity.
Qed.

(** Every kind of result has its own introduction. *)
Theorem C160_intro : forall s t, intro s = intro t -> s = t.
Proof. intros [] []; cbn; intros H; try reflexivity; discriminate. Qed.
Print Assumptions C160_intro.

(** The message is shown with some line breaks instead of spaces, none if it has no
    " when ". *)
Lemma replace_skip : forall a s, replace_when (a ++ s)%string (String.length a) = (a ++ replace_when s 0)%string.
Proof.
  induction a as [|c a IH]; intros s; cbn [append String.length replace_when]; [reflexivity|].
  rewrite IH. reflexivity.
Qed.

Lemma prefix_split : forall p s, prefix p s = true -> exists r, s = (p ++ r)%string.
Proof.
  induction p as [|c p IH]; intros s H; [exists s; reflexivity|].
  destruct s as [|d s]; [discriminate|]. cbn [prefix] in H.
  destruct (ascii_dec c d) as [->|]; [|discriminate].
  destruct (IH s H) as [r ->]. exists r. reflexivity.
Qed.

Theorem C160_text : forall s,
  rebroken s (replace_when s 0) /\ (~ occurs " when " s -> replace_when s 0 = s).
Proof.
  intros s. remember (String.length s) as n eqn:E. revert s E.
  induction n as [n IH] using (well_founded_induction lt_wf). intros s ->.
  destruct s as [|c r]; [split; [constructor|reflexivity]|].
  destruct (prefix " when " (String c r)) eqn:P.
  - destruct (prefix_split _ _ P) as [t E]. rewrite E. split.
    + assert (R : replace_when (" when " ++ t)%string 0 =
                  String (ascii_of_nat 10) ("when " ++ replace_when t 0)%string).
      { change (" when " ++ t)%string with (String " " ("when " ++ t)%string).
        cbn [replace_when]. 
        replace (prefix " when " (String " " ("when " ++ t)%string)) with true
          by (cbn; destruct t; reflexivity).
        f_equal. }
      rewrite R. constructor. apply (IH (String.length t)); [|reflexivity].
      rewrite E. cbn. lia.
    + intros N. exfalso. apply N. exists "", t. reflexivity.
  - destruct (IH (String.length r)) with (s := r) as [A B]; [cbn; lia|reflexivity|].
    assert (R : replace_when (String c r) 0 = String c (replace_when r 0)).
    { cbn [replace_when]. rewrite P. reflexivity. }
    rewrite R. split; [constructor; exact A|]. intros N. f_equal. apply B.
    intros [a [b X]]. apply N. exists (String c a), b. rewrite X. reflexivity.
Qed.
Print Assumptions C160_text.

(** So the parts of a verbose report are the traceback, the introduction, the context
    and the message. *)
Theorem C160_parts : forall show ra file m out,
  (forall t, In t file -> t <> "") ->
  long_describe show ra file m = Some out ->
  exists i ctx desc,
    out = (r_traceback m ++ newline ++ i ++ newline ++ ctx ++ newline ++ desc ++ newline)%string /\
    i = (match r_state m with CONFIRMED | CANNOT_CONFIRM => OKGREEN | _ => FAIL end
         ++ intro (r_state m) ++ ENDC)%string /\
    ctx = (r_file m ++ ":" ++ show (r_line m) ++ ":" ++ newline ++
           String.concat "" (map (mark (r_line m)) (filter (near (r_line m)) (numbered file))))%string /\
    rebroken (r_text m) desc.
Proof.
  intros show ra file m out NE H. unfold long_describe in H.
  destruct (negb ra && _); [discriminate|]. injection H as <-.
  eexists. eexists. eexists. split; [reflexivity|]. split; [|split].
  - destruct (r_state m); reflexivity.
  - apply C160_context. exact NE.
  - apply C160_text.
Qed.
Print Assumptions C160_parts.
Example C160_parts_example : forall show, exists out,
  long_describe show false [("x" ++ newline)%string]
    (mkReport POST_FAIL "false when calling f(1)" "a.py" 1 "") = Some out.
Proof. intros show. eexists. reflexivity. Qed.

(** Refuted: that the call shown can be run.  If an argument of the counterexample
    contains the word, its literal is broken. *)
Lemma regroup : forall n i c d : string,
  ("" ++ n ++ i ++ n ++ c ++ n ++ d)%string = ((n ++ i ++ n ++ c ++ n) ++ d)%string.
Proof. intros n i c d. rewrite !app_assoc_s. reflexivity. Qed.

Theorem C160_call_refuted : exists call,
  let desc := ("false when calling " ++ call)%string in
  ~ occurs call (replace_when desc 0) /\
  forall show file, exists pre,
    long_describe show false file (mkReport POST_FAIL desc "a.py" 1 "") =
    Some (pre ++ replace_when desc 0 ++ newline)%string.
Proof.
  exists "f('say when ')". cbn zeta. split.
  - intros H. apply (Properties_Noise.contains_iff _ _) in H. vm_compute in H. discriminate.
  - intros show file.
    exists (newline ++ color (intro POST_FAIL) FAIL ++ newline ++
            src_context show "a.py" file 1 ++ newline)%string.
    exact (f_equal Some (regroup _ _ _ _)).
Qed.
Print Assumptions C160_call_refuted.
