From Coq Require Import ZArith List Bool Lia.
From Verif Require Import Py FString_Model FString_Spec.
Import ListNotations.

Section Proofs.
  Variable V : Type.
  Variables str_of repr_of : V -> outcome text.
  Variable format_of : V -> text -> outcome text.
  Variable quote escape : str -> str.
  Variable format_str : text -> text -> outcome text.
  Hypothesis format_chars : forall t spec, letters (format_str t spec) = letters (format_str (Text false (chars t)) (Text false (chars spec))).
  Hypothesis format_nothing : forall s, letters (format_str (Text false s) (Text false [])) = Done s.

  Notation push := (push_piece V str_of repr_of format_of quote escape format_str).
  Notation pushes := (push_pieces V str_of repr_of format_of quote escape format_str).
  Notation pypiece := (py_piece V str_of repr_of format_of quote escape format_str).
  Notation pyfs := (py_fstring V str_of repr_of format_of quote escape format_str).
  Notation traced := (traced_fstring V str_of repr_of format_of quote escape format_str).

  Lemma leaves_stash : forall stack x,
    leaves V stack (letters x)
      (andthen (andthen (stash x) (fun q => Done (Str V (fst q) :: stack, snd q)))
         (fun r => match fst r, snd r with
                   | _ :: rest, Some s => Done (Txt V s :: rest)
                   | _, _ => Fails (Raise AttributeError)
                   end)).
  Proof. intros stack [[b s]|e]; cbn; eauto. Qed.

  Lemma push_ok : forall p stack, easy_piece V p -> leaves V stack (pypiece p) (push p stack).
  Proof.
    intros [s|o n spec] stack; cbn [easy_piece pypiece push].
    - intros _. cbn. unfold Str. eauto.
    - intros (NW & E). destruct spec as [[[[|] sp]| |]|]; try easy.
      + subst n. cbn [Nat.add]. destruct o as [t|v|]; try easy; cbn -[stash letters]; [|apply leaves_stash].
        assert (FC := format_chars t (Text false sp)). cbn [chars] in FC. rewrite <- FC. apply leaves_stash.
      + assert (n = 0 \/ n = 1 \/ n = 2) as [->|[->| ->]] by lia; destruct o as [[b s]|v|]; try easy; cbn.
        * rewrite format_nothing. destruct b; cbn; eauto.
          assert (L := format_nothing s). destruct (format_str _ _) as [[b' s']|e]; cbn in *; [|easy].
          injection L as ->. eauto.
        * destruct (format_of v _) as [[b s]|e]; cbn; eauto.
        * rewrite format_nothing. destruct b; cbn; eauto.
        * destruct (str_of v) as [[b s]|e]; cbn; eauto. rewrite format_nothing. cbn. eauto.
        * rewrite format_nothing. cbn. eauto.
        * destruct (repr_of v) as [[b s]|e]; cbn; eauto. rewrite format_nothing. cbn. eauto.
  Qed.

  (** The parts' texts, last first. *)
  Lemma pushes_ok : forall l stack, Forall (easy_piece V) l ->
    match pyfs l with
    | Done s => exists ts, pushes l stack = Done (map (Txt V) (rev ts) ++ stack) /\ length ts = length l /\ concat (map chars ts) = s
    | Fails e => pushes l stack = Fails e
    end.
  Proof.
    induction l as [|p l IH]; intros stack F; cbn [py_fstring push_pieces].
    - exists []. auto.
    - inversion_clear F as [|? ? E F']. assert (H := push_ok p stack E). unfold leaves in H.
      destruct (pypiece p) as [s|e].
      + destruct H as (b & ->). cbn [andthen]. specialize (IH (Txt V (Text b s) :: stack) F').
        destruct (pyfs l) as [s'|e].
        * destruct IH as (ts & -> & L & C). exists (Text b s :: ts). cbn. rewrite map_app, <- app_assoc. cbn.
          repeat split; auto. now rewrite C.
        * exact IH.
      + now rewrite H.
  Qed.

  Lemma concatenation_ok : forall ts acc,
    exists b, concatenation V acc (map (Txt V) ts) = Done (Text b (chars acc ++ concat (map chars ts))).
  Proof.
    induction ts as [|t ts IH]; intros [b s]; cbn.
    - exists b. now rewrite app_nil_r.
    - destruct (IH (Text (b || symbolic t) (s ++ chars t))) as (b' & E). exists b'. rewrite E. cbn. now rewrite app_assoc.
  Qed.
  Lemma join_empty : forall n, join V (repeat (Str V []) n) = Done [].
  Proof. induction n; cbn; auto. now rewrite IHn. Qed.
  Lemma rev_repeat : forall A (x : A) n, rev (repeat x n) = repeat x n.
  Proof.
    intros. induction n; cbn; auto. rewrite IHn. clear. induction n; cbn; auto. now rewrite IHn.
  Qed.
  Lemma firstn_exact : forall A (x y : list A) n, length x = n -> firstn n (x ++ y) = x.
  Proof. intros A x y n <-. now rewrite firstn_app, Nat.sub_diag, firstn_all, firstn_O, app_nil_r. Qed.
  Lemma skipn_exact : forall A (x y : list A) n, length x = n -> skipn n (x ++ y) = y.
  Proof. intros A x y n <-. now rewrite skipn_app, Nat.sub_diag, skipn_all, skipn_O, app_nil_l. Qed.
  Lemma build_ok : forall ts stack, length ts < 256 ->
    exists b, traced_build_string V (length ts) (map (Txt V) (rev ts) ++ stack) = Done (Txt V (Text b (concat (map chars ts))) :: stack).
  Proof.
    intros ts stack L. unfold traced_build_string. rewrite Nat.mod_small by lia.
    assert (LM : length (map (Txt V) (rev ts)) = length ts) by now rewrite map_length, rev_length.
    rewrite (firstn_exact _ _ _ _ LM), (skipn_exact _ _ _ _ LM), <- map_rev, rev_involutive.
    destruct (concatenation_ok ts (Text false [])) as (b & ->). cbn [andthen]. unfold build_string.
    assert (LR := repeat_length (Str V []) (length ts)).
    rewrite (firstn_exact _ _ _ _ LR), (skipn_exact _ _ _ _ LR), rev_repeat, join_empty. cbn. eauto.
  Qed.
  Lemma traced_ok : forall l stack, Forall (easy_piece V) l -> length l < 256 ->
    leaves V stack (pyfs l) (traced l stack).
  Proof.
    intros l stack F L. unfold traced_fstring. assert (H := pushes_ok l stack F). unfold leaves.
    destruct (pyfs l) as [s|e]; [|now rewrite H].
    destruct H as (ts & -> & LT & C). cbn [andthen]. destruct (Nat.eqb_spec (length l) 1) as [E|E].
    - destruct ts as [|t [|]]; cbn in LT; try lia. cbn in *. destruct t as [b s']. cbn in C. rewrite app_nil_r in C. subst. eauto.
    - rewrite <- LT in *. destruct (build_ok ts stack L) as (b & ->). rewrite C. eauto.
  Qed.
End Proofs.
