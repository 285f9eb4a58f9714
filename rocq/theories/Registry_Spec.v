(** What register_contract.py documents, with lists of signatures as plain values.  A function has at most one
    entry; the first accepted registration decides its conditions and whether its body is skipped, later ones add
    signatures. *)
From Coq Require Import ZArith List Bool.
Import ListNotations.
From Verif Require Import Py Registry_Model.

Record entry := Entry { e_pre : option nat; e_post : option nat; e_sigs : list sg; e_skip : bool }.
Record book := Book { entries : nat -> option entry; skipped_modules : nat -> Prop }.

Section Functions.
Variable python_sig : nat -> option sg.
Variable stub_sigs : nat -> list sg.
Variable cond_params : nat -> list (Z * bool).

(** A parameter named [x] must be given by the caller *)
Definition must_give (ps : list (Z * bool)) (x : Z) : Prop := In (x, false) ps.
Definition takes (s : sg) (x : Z) : Prop := exists d, In (x, d) (params s).
Definition pre_fits (pre : option nat) (s : sg) : Prop :=
  forall p, pre = Some p -> forall x, must_give (cond_params p) x -> takes s x.
Definition post_fits (post : option nat) (s : sg) : Prop :=
  forall p, post = Some p -> forall x, must_give (cond_params p) x -> takes s x \/ x = return_name \/ x = old_name.
(** all signatures agree with that of the function, and the conditions with all signatures *)
Definition well_formed (f : nat) (pre post : option nat) (sigs : list sg) : Prop :=
  forall s, In s sigs \/ python_sig f = Some s ->
    (forall r, python_sig f = Some r -> forall x, must_give (params s) x -> takes r x) /\ pre_fits pre s /\ post_fits post s.
(** Signatures for a registration that gives [given]: taken from the stubs if none are given and Python's is missing
    or lacks the return annotation *)
Definition effective (f : nat) (given : list sg) : list sg :=
  match given, python_sig f with
  | [], Some r => if annotated r then [] else stub_sigs f
  | [], None => stub_sigs f
  | _, _ => given
  end.
(** The conditions for acceptance *)
Definition acceptable (b : book) (f : nat) (pre post : option nat) (sigs : list sg) (skip : bool) : Prop :=
  (sigs <> [] \/ python_sig f <> None) /\ well_formed f pre post sigs /\
  forall e, entries b f = Some e -> e_pre e = pre /\ e_post e = post /\ e_skip e = skip.
Definition entered (b : book) (f : nat) (pre post : option nat) (sigs : list sg) (skip : bool) (b' : book) : Prop :=
  entries b' f = Some (Entry pre post (match entries b f with Some e => e_sigs e | None => [] end ++ sigs) skip) /\
  (forall g, g <> f -> entries b' g = entries b g) /\ (forall m, skipped_modules b' m <-> skipped_modules b m).
Definition unchanged (b b' : book) : Prop :=
  (forall g, entries b' g = entries b g) /\ (forall m, skipped_modules b' m <-> skipped_modules b m).
End Functions.

(** The book that a registry stands for *)
Definition entry_of (st : registry) (c : contract) : entry := Entry (k_pre c) (k_post c) (the_list st (k_sigs c)) (k_skip c).
Definition book_of (st : registry) : book :=
  Book (fun f => option_map (entry_of st) (find (contracts st) f)) (fun m => In m (modules st)).
