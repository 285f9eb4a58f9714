(** C174: naming a line of a function checks that function. *)
From Coq Require Import ZArith List Bool Lia.
From Verif Require Import Py LineFind_Model LineFind_Spec.
Import ListNotations.
Open Scope Z_scope.

Lemma member_nested : forall P : member -> Prop,
  (forall h s l, P (Fn h s l)) -> (forall h s l, P (Bound h s l)) -> P Other ->
  (forall h ms, (forall n o m, In (n, o, m) ms -> P m) -> P (Cls h ms)) -> forall m, P m.
Proof.
  intros P A B C D. refine (fix go (m : member) : P m :=
    match m with Fn h s l => A h s l | Bound h s l => B h s l | Other => C | Cls h ms => D h ms _ end).
  induction ms as [|[[n o] m1] r IH]; intros n' o' m' I; [destruct I|].
  destruct I as [E|I]; [|exact (IH n' o' m' I)]. assert (m1 = m') as <- by congruence. apply go.
Qed.
Lemma contains_iff : forall s l line, contains_line s l line = true <-> s <= line <= s + l.
Proof. intros. unfold contains_line. rewrite andb_true_iff, !Z.leb_le. reflexivity. Qed.

(** *** What is found has the line, or ends just before it *)
Lemma load_sound : forall m own line p, load_member own m line = Ok (Some p) ->
  exists s l, leads m p s l /\ s <= line <= s + l.
Proof.
  intro m. induction m as [h s l|h s l| |h ms IH] using member_nested; intros own line p E.
  - destruct h; [|discriminate]. cbn [load_member] in E. destruct (contains_line s l line) eqn:C; [|discriminate].
    destruct own; [|discriminate]. injection E as <-. exists s, l. split; [constructor|]. apply contains_iff. exact C.
  - discriminate.
  - discriminate.
  - destruct h; [|discriminate]. cbn [load_member] in E.
    enough (G : forall r, (forall n o m, In (n, o, m) r -> In (n, o, m) ms) ->
      (fix scan (ms : list (Z * bool * member)) : res (option (list Z)) :=
         match ms with [] => Ok None | (n, own, m) :: ms =>
           do x <- load_member own m line; match x with Some p => Ok (Some (n :: p)) | None => scan ms end end) r = Ok (Some p) ->
      exists s l, leads (Cls true ms) p s l /\ s <= line <= s + l) by (apply (G ms); [tauto|exact E]).
    clear E. induction r as [|[[n o] m] r IHr]; intros Sub E; [discriminate|].
    destruct (load_member o m line) as [[q|]|e] eqn:X; cbn [bind] in E; try discriminate.
    + injection E as <-. pose proof (Sub n o m (or_introl eq_refl)) as I.
      destruct (IH n o m I o line q X) as (s & l & L & H). exists s, l. split; [|exact H]. econstructor; eassumption.
    + apply IHr; [|exact E]. intros n' o' m' I. apply Sub. right. exact I.
Qed.
(** *** Something is found if some function has the line *)
Lemma load_plain : forall m own line, plain own m -> exists r, load_member own m line = Ok r /\
  (r = None -> forall p s l, leads m p s l -> ~ (s <= line <= s + l)).
Proof.
  intro m. induction m as [h s l|h s l| |h ms IH] using member_nested; intros own line P.
  - inversion P; subst. destruct h; [|exists None; split; [reflexivity|intros _ p s' l' L; inversion L]].
    cbn [load_member]. destruct (contains_line s l line) eqn:C.
    + exists (Some []). split; [reflexivity|discriminate].
    + exists None. split; [reflexivity|]. intros _ p s' l' L H. inversion L; subst. apply contains_iff in H. congruence.
  - inversion P.
  - exists None. split; [reflexivity|]. intros _ p s l L. inversion L.
  - destruct h; [|exists None; split; [reflexivity|intros _ p s l L; inversion L]].
    inversion P as [|o' h' ms' Pm|]; subst. cbn [load_member].
    enough (G : forall r, (forall n o m, In (n, o, m) r -> In (n, o, m) ms) -> exists x,
      (fix scan (ms : list (Z * bool * member)) : res (option (list Z)) :=
         match ms with [] => Ok None | (n, own, m) :: ms =>
           do x <- load_member own m line; match x with Some p => Ok (Some (n :: p)) | None => scan ms end end) r = Ok x /\
      (x = None -> forall n o m p s l, In (n, o, m) r -> leads m p s l -> ~ (s <= line <= s + l))).
    { destruct (G ms (fun _ _ _ I => I)) as (x & E & N). exists x. split; [exact E|].
      intros X p s l L. inversion L as [| |ms' n o m q s' l' I L']; subst. exact (N eq_refl n o m q s l I L'). }
    induction r as [|[[n o] m] r IHr]; intros Sub.
    + exists None. split; [reflexivity|]. intros _ n o m p s l [].
    + pose proof (Sub n o m (or_introl eq_refl)) as I. destruct (IH n o m I o line (Pm n o m I)) as (x & E & N).
      rewrite E. cbn [bind]. destruct x as [q|]; [exists (Some (n :: q)); split; [reflexivity|discriminate]|].
      destruct (IHr (fun n' o' m' J => Sub n' o' m' (or_intror J))) as (y & E2 & N2). exists y. split; [exact E2|].
      intros Y n' o' m' p s l [J|J] L.
      * injection J as <- <- <-. exact (N eq_refl p s l L).
      * exact (N2 Y n' o' m' p s l J L).
Qed.

(** What is found is a function of the module that has the line or ends on the line before *)
Theorem C174_near_partial : forall ms line p, load_function_at_line ms line = Ok (Some p) ->
  exists s l, leads (Cls true ms) p s l /\ (on_line s l line \/ line = s + l).
Proof.
  intros ms line p E. destruct (load_sound _ _ _ _ E) as (s & l & L & H). exists s, l. split; [exact L|]. unfold on_line. lia.
Qed.
Print Assumptions C174_near_partial.
(** Without inherited methods and classmethods, and if no function ends on the line before: a
    function that has the line is found if there is one, and otherwise none is. *)
Theorem C174_exact_partial : forall ms line, plain true (Cls true ms) ->
  (forall p s l, leads (Cls true ms) p s l -> 0 <= l /\ line <> s + l) ->
  (exists p s l, load_function_at_line ms line = Ok (Some p) /\ leads (Cls true ms) p s l /\ on_line s l line) \/
  (load_function_at_line ms line = Ok None /\ forall p s l, leads (Cls true ms) p s l -> ~ on_line s l line).
Proof.
  intros ms line P A. unfold load_function_at_line, on_line. destruct (load_plain _ true line P) as ([p|] & E & N).
  - left. destruct (load_sound _ _ _ _ E) as (s & l & L & H). exists p, s, l. split; [exact E|]. split; [exact L|].
    destruct (A p s l L). lia.
  - right. split; [exact E|]. intros p s l L H. apply (N eq_refl p s l L). lia.
Qed.
Print Assumptions C174_exact_partial.
(** a function on lines 1 and 2, and a class with a method on lines 5 to 7 *)
Definition sample : list (Z * bool * member) :=
  [(1, true, Cls true [(3, true, Fn true 5 3); (4, true, Other)]); (2, true, Fn true 1 2)].
Example C174_example : plain true (Cls true sample) /\
  (forall p s l, leads (Cls true sample) p s l -> 0 <= l /\ 6 <> s + l) /\
  load_function_at_line sample 6 = Ok (Some [1; 3]) /\ load_function_at_line sample 4 = Ok None.
Proof.
  split; [|split; [|split; reflexivity]].
  - constructor. intros n o m [E|[E|[]]]; injection E as <- <- <-; constructor.
    intros n o m [E|[E|[]]]; injection E as <- <- <-; constructor.
  - intros p s l L. inversion L as [| |ms n o m q s' l' I L']; subst. destruct I as [E|[E|[]]]; injection E as <- <- <-.
    + inversion L' as [| |ms n o m q' s' l' I L2]; subst. destruct I as [E|[E|[]]]; injection E as <- <- <-; inversion L2; subst; lia.
    + inversion L'; subst; lia.
Qed.

(** Refuted: of two functions one after the other, the line of the second's def finds the
    first, *)
Theorem C174_next_refuted : exists ms line p s l,
  load_function_at_line ms line = Ok (Some p) /\ leads (Cls true ms) p s l /\ ~ on_line s l line /\
  (forall q s' l', leads (Cls true ms) q s' l' -> q = p -> s' = s /\ l' = l) /\
  exists q s' l', leads (Cls true ms) q s' l' /\ on_line s' l' line.
Proof.
  exists [(1, true, Fn true 1 2); (2, true, Fn true 3 2)], 3, [1], 1, 2. unfold on_line.
  split; [reflexivity|]. split; [eapply leads_cls; [left; reflexivity|constructor]|]. split; [lia|]. split.
  - intros q s' l' L ->. inversion L as [| |ms n o m q' s2 l2 I L']; subst.
    destruct I as [E|[E|[]]]; [|discriminate]. injection E as <- <-. inversion L'; subst. split; reflexivity.
  - exists [2], 3, 2. split; [eapply leads_cls; [right; left; reflexivity|constructor]|lia].
Qed.
Print Assumptions C174_next_refuted.
(** a line of an inherited method is an error if a derived class comes first, *)
Theorem C174_inherited_refuted : exists ms line p s l,
  leads (Cls true ms) p s l /\ on_line s l line /\ load_function_at_line ms line = Err KeyError.
Proof.
  exists [(1, true, Cls true [(9, false, Fn true 2 2)]); (2, true, Cls true [(9, true, Fn true 2 2)])], 3, [2; 9], 2, 2.
  unfold on_line. split; [|split; [lia|reflexivity]].
  eapply leads_cls; [right; left; reflexivity|]. eapply leads_cls; [left; reflexivity|constructor].
Qed.
Print Assumptions C174_inherited_refuted.
(** and classmethods are not found. *)
Theorem C174_classmethod_refuted : exists ms line p s l,
  leads (Cls true ms) p s l /\ on_line s l line /\ load_function_at_line ms line = Ok None.
Proof.
  exists [(1, true, Cls true [(9, true, Bound true 2 3)])], 3, [1; 9], 2, 3.
  unfold on_line. split; [|split; [lia|reflexivity]].
  eapply leads_cls; [left; reflexivity|]. eapply leads_cls; [left; reflexivity|constructor].
Qed.
Print Assumptions C174_classmethod_refuted.
