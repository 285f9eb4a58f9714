(* Contracts written with deal. *)
From Coq Require Import ZArith List Bool Lia.
From Verif Require Import Sig_Model Deal_Model Deal_Spec.
Import ListNotations.
Local Open Scope Z_scope.

Lemma extract_eq sig : forall value b pos kw, bound sig value b ->
  extract sig b pos kw =
  Some (pos ++ map (fun p => value (p_name p)) sig,
        fold_left (fun k p => match p_kind p with KwOnly => assign k (p_name p) (value (p_name p)) | _ => k end) sig kw).
Proof.
  induction sig as [|p sig IH]; intros value b pos kw B; cbn.
  - now rewrite app_nil_r.
  - rewrite (B p (or_introl eq_refl)). rewrite (IH value b).
    + rewrite <- app_assoc. reflexivity.
    + intros q I. apply B. now right.
Qed.

Lemma positional_args sig value : only_positional sig ->
  call_args sig value = map (fun p => value (p_name p)) sig /\ call_kwargs sig value = [].
Proof.
  induction sig as [|p sig IH]; intros O; cbn; auto.
  destruct IH as (A & K); [intros q I; apply O; now right|].
  unfold call_args, call_kwargs in *. rewrite A, K.
  destruct (O p (or_introl eq_refl)) as [-> | ->]; auto.
Qed.

Lemma positional_kw sig value : forall kw, only_positional sig ->
  fold_left (fun k p => match p_kind p with KwOnly => assign k (p_name p) (value (p_name p)) | _ => k end) sig kw = kw.
Proof.
  induction sig as [|p sig IH]; intros kw O; cbn; auto.
  rewrite IH; [|intros q I; apply O; now right].
  destruct (O p (or_introl eq_refl)) as [-> | ->]; auto.
Qed.

(** * C104: conditions are evaluated on the call's arguments *)

(** Functions with positional parameters only.  Missing: the other kinds of parameters, for
    which it does not hold. *)
Theorem C104_pre_partial :
  forall sig value b v, only_positional sig -> bound sig value b ->
    eval_pre v sig b = as_evaluated (asked_pre v sig value).
Proof.
  intros sig value b v O B. unfold eval_pre, asked_pre, contract_validates, as_evaluated.
  rewrite (extract_eq sig value b); auto. destruct (positional_args sig value O) as (-> & ->).
  rewrite positional_kw by auto. reflexivity.
Qed.
Print Assumptions C104_pre_partial.

Theorem C104_post : forall v ret, eval_post v ret = as_evaluated (v [ret] []).
Proof. reflexivity. Qed.
Print Assumptions C104_post.

Theorem C104_ensure_partial :
  forall sig value b v ret, only_positional sig -> bound sig value b ->
    eval_ensure v sig b ret = as_evaluated (v (call_args sig value) [(result_name, ret)]).
Proof.
  intros sig value b v ret O B. unfold eval_ensure, contract_validates, as_evaluated.
  rewrite (extract_eq sig value b); auto. destruct (positional_args sig value O) as (-> & _).
  rewrite positional_kw by auto. reflexivity.
Qed.
Print Assumptions C104_ensure_partial.

(** A function with a keyword-only parameter and no "*args", whose contract takes the same
    parameters: whatever the arguments, evaluating the precondition raises TypeError. *)
Theorem C104_keyword_only :
  forall sig value b v, bound sig value b -> like_function sig v -> has_star sig = false ->
    (exists p, In p sig /\ p_kind p = KwOnly) ->
    eval_pre v sig b = EExc type_error.
Proof.
  intros sig value b v B L H (p & I & K). unfold eval_pre. rewrite (extract_eq sig value b) by auto.
  unfold contract_validates. rewrite L; auto. cbn. rewrite map_length. clear - I K.
  unfold positionals. induction sig as [|q sig IH]; [easy|]. cbn.
  assert (W : (length (filter (fun p => match p_kind p with PosOnly | PosKw => true | _ => false end) sig)
               <= length sig)%nat).
  { clear. induction sig as [|q sig IH]; cbn; [lia|]. destruct (p_kind q); cbn; lia. }
  destruct I as [->|I].
  - rewrite K. lia.
  - specialize (IH I). destruct (p_kind q); cbn; lia.
Qed.
Print Assumptions C104_keyword_only.

(** def f(x, *, y) with @deal.pre(lambda x, y: x > y) *)
Definition kw_sig : list parameter := [Param 1 PosKw false; Param 2 KwOnly false].
Definition kw_pre : validator := fun pos kw =>
  match pos, lookup kw 2 with
  | [VInt x], Some (VInt y) => if y <? x then Accepts else Rejects
  | [VInt x; VInt y], None => if y <? x then Accepts else Rejects
  | _, _ => Throws type_error
  end.
Definition kw_like : validator := fun pos kw =>
  match pos, lookup kw 2 with
  | [VInt x], Some (VInt y) => if y <? x then Accepts else Rejects
  | _, _ => Throws type_error
  end.
Definition kw_values (n : Z) : val := if n =? 1 then VInt 5 else VInt 3.

Example C104_keyword_only_hypotheses :
  bound kw_sig kw_values [(1, VInt 5); (2, VInt 3)] /\ like_function kw_sig kw_like /\
  has_star kw_sig = false.
Proof.
  split; [|split].
  - intros p [<-|[<-|[]]]; reflexivity.
  - intros pos kw _ L. cbn in L. destruct pos as [|x [|y pos]]; cbn in L; try lia.
    unfold kw_like. destruct x; reflexivity.
  - reflexivity.
Qed.

(** So a satisfied precondition is not recognized. *)
Theorem C104_pre_refuted :
  exists sig value b v, bound sig value b /\
    asked_pre v sig value = Accepts /\ eval_pre v sig b = EExc type_error.
Proof.
  exists kw_sig, kw_values, [(1, VInt 5); (2, VInt 3)], kw_pre.
  split; [intros p [<-|[<-|[]]]; reflexivity|]. split; reflexivity.
Qed.
Print Assumptions C104_pre_refuted.

(** With "*args" the extra arguments arrive as one tuple. *)
Theorem C104_star_refuted :
  exists sig value b v, bound sig value b /\ (forall p, In p sig -> p_kind p <> KwOnly) /\
    asked_pre v sig value = Accepts /\ eval_pre v sig b = EBool false.
Proof.
  exists [Param 1 VarPos false], (fun _ => VTuple [VInt 1; VInt 2]), [(1, VTuple [VInt 1; VInt 2])],
    (fun pos _ => match pos with [_; _] => Accepts | _ => Rejects end).
  split; [intros p [<-|[]]; reflexivity|].
  split; [intros p [<-|[]]; easy|]. split; reflexivity.
Qed.
Print Assumptions C104_star_refuted.

Example C104_positional_case :
  let sig := [Param 1 PosOnly false; Param 2 PosKw true] in
  only_positional sig /\ bound sig kw_values [(1, VInt 5); (2, VInt 3)] /\
  eval_pre kw_pre sig [(1, VInt 5); (2, VInt 3)] = EBool true.
Proof.
  cbv zeta. split; [|split].
  - intros p [<-|[<-|[]]]; cbn; auto.
  - intros p [<-|[<-|[]]]; reflexivity.
  - reflexivity.
Qed.

(** * C105: every contract of the function is used *)

Lemma gather_spec skip l : forall pre post excs,
  (marked skip l -> gather skip l pre post excs = None) /\
  (~ marked skip l ->
   gather skip l pre post excs = Some (pre ++ pres_of l, post ++ posts_of l, excs ++ raises_of l)).
Proof.
  induction l as [|c l IH]; intros pre post excs.
  - cbn. rewrite !app_nil_r. split; auto. intros (ms & m & [] & _).
  - assert (M : (forall ms, c <> Has ms) -> marked skip (c :: l) <-> marked skip l).
    { intros NH. split; intros (ms & m & I & J & K).
      - destruct I as [I|I]; [congruence|]. exists ms, m. auto.
      - exists ms, m. cbn. auto. }
    destruct c; cbn [gather];
      try (rewrite (M ltac:(discriminate));
           match goal with |- context [gather skip l ?a ?b ?c] => destruct (IH a b c) as (A & B) end;
           split; [exact A|]; intros N; rewrite (B N);
           cbn [pres_of posts_of raises_of flat_map]; rewrite <- ?app_assoc; reflexivity).
    destruct (existsb _ markers) eqn:E.
    + split; auto. intros N. exfalso. apply N.
      apply existsb_exists in E. destruct E as (m & I & E).
      apply existsb_exists in E. destruct E as (m' & I' & E). apply Z.eqb_eq in E. subst m'.
      exists markers, m. cbn. auto.
    + assert (M' : marked skip (Has markers :: l) <-> marked skip l).
      { split; intros (ms & m & I & J & K).
        - destruct I as [I|I].
          + injection I as ->. exfalso.
            assert (X : existsb (fun m => existsb (Z.eqb m) skip) ms = true); [|congruence].
            apply existsb_exists. exists m. split; auto. apply existsb_exists. exists m.
            split; auto. apply Z.eqb_refl.
          + exists ms, m. auto.
        - exists ms, m. cbn. auto. }
      rewrite M'. exact (IH pre post excs).
Qed.

(** A function without contracts, or declared to have one of the listed side effects, is not
    analyzed.  Otherwise all its preconditions, postconditions and exceptions are taken, in
    order; when there are preconditions but no postcondition, the postcondition is True. *)
Theorem C105_contracts :
  forall skip l,
    (l = [] \/ marked skip l -> get_fn_conditions skip l = None) /\
    (l <> [] -> ~ marked skip l -> exists c,
       get_fn_conditions skip l = Some c /\
       c_pre c = pres_of l /\ c_raises c = raises_of l /\
       (c_post c = posts_of l \/
        (posts_of l = [] /\ pres_of l <> [] /\ c_post c = [CTrue])) /\
       (pres_of l <> [] -> c_post c <> [])).
Proof.
  intros skip l. destruct (gather_spec skip l [] [] []) as (A & B). unfold get_fn_conditions. split.
  - intros [-> | M]; [reflexivity|]. rewrite (A M). destruct l; reflexivity.
  - intros N M. rewrite (B M). cbn [app]. destruct l as [|c0 l0]; [easy|].
    eexists. split; [reflexivity|]. cbn [c_pre c_post c_raises].
    repeat split; auto.
    + destruct (pres_of (c0 :: l0)), (posts_of (c0 :: l0)); auto. right. repeat split; auto. easy.
    + destruct (pres_of (c0 :: l0)), (posts_of (c0 :: l0)); easy.
Qed.
Print Assumptions C105_contracts.

Example C105_case :
  let v : validator := fun _ _ => Accepts in
  get_fn_conditions [7] [RaisesC [1; 2]; Pre 10 v; Has [8]; Pre 11 v] =
    Some (Conditions [CPre 10 v; CPre 11 v] [CTrue] [1; 2]) /\
  get_fn_conditions [7] [Pre 10 v; Has [8; 7]] = None /\
  ~ marked [7] [Pre 10 v; Has [8]].
Proof.
  cbv zeta. split; [reflexivity|]. split; [reflexivity|].
  intros (ms & m & [I|[I|[]]] & J & K); [easy|]. injection I as <-.
  destruct J as [<-|[]]. destruct K as [K|[]]. lia.
Qed.
