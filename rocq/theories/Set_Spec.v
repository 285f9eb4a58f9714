(** Python's mutable sets, from the language reference: each set object is a finite
    collection of distinct elements.  What an object contains is a predicate; the
    order of iteration and the element chosen by pop are free, so a step is a
    relation between states and results. *)
From Coq Require Import ZArith List Bool.
From Verif Require Import Py Set_Model.
Import ListNotations.
Open Scope Z_scope.

Section Spec.
  Context {A : Type}.
  Variable eq_dec : forall x y : A, {x = y} + {x <> y}.
  Definition pset := A -> bool.
  Definition world := list pset.

  Definition of_list (l : list A) : pset := fun x => if in_dec eq_dec x l then true else false.
  (** [l] lists the elements of [p], each once *)
  Definition lists (p : pset) (l : list A) : Prop := NoDup l /\ forall x, In x l <-> p x = true.
  Definition subset (p q : pset) : Prop := forall x, p x = true -> q x = true.
  Definition says (b : bool) (P : Prop) : Prop := b = true <-> P.

  (** What the operators | & ^ - do, element by element *)
  Definition p_op (o : lop) (p q : pset) : pset := fun x =>
    match o with
    | LOr => p x || q x
    | LAnd => p x && q x
    | LXor => negb (Bool.eqb (p x) (q x))
    | LSub => p x && negb (q x)
    | LRsub => q x && negb (p x)
    end.
  Definition p_arg (w : world) (a : sarg A) (q : pset) : Prop :=
    match a with
    | ASet n => nth_error w n = Some q
    | AFrozen l | AIter l => q = of_list l
    end.

  (** [upd w n p w']: object n now contains p *)
  Definition upd (w : world) (n : nat) (p : pset) (w' : world) : Prop :=
    length w' = length w /\
    forall m q, nth_error w' m = Some q ->
      if Nat.eq_dec m n then forall x, q x = p x else nth_error w m = Some q.
  (** [created w p r w']: a new object containing p is the result *)
  Definition created (w : world) (p : pset) (r : sout A) (w' : world) : Prop :=
    r = SRObj (length w) /\ exists q, w' = w ++ [q] /\ forall x, q x = p x.

  (** combine with every argument in turn *)
  Inductive p_fold (w : world) (o : lop) : pset -> list (sarg A) -> pset -> Prop :=
  | pf_nil p : p_fold w o p [] p
  | pf_cons p a q l r : p_arg w a q -> p_fold w o (p_op o p q) l r -> p_fold w o p (a :: l) r.

  Definition compares (c : cmp) (p q : pset) (b : bool) : Prop :=
    match c with
    | CEq => says b (forall x, p x = q x)
    | CNe => says b (~ forall x, p x = q x)
    | CLe => says b (subset p q)
    | CLt => says b (subset p q /\ ~ subset q p)
    | CGe => says b (subset q p)
    | CGt => says b (subset q p /\ ~ subset p q)
    end.

  Definition spec_step (w : world) (o : sop A) (r : sout A) (w' : world) : Prop :=
    match o with
    | SNew l => created w (of_list l) r w'
    | SCopy n => exists p, nth_error w n = Some p /\ created w p r w'
    | SContains n x => exists p, nth_error w n = Some p /\ r = SRBool (p x) /\ w' = w
    | SLen n => exists p l, nth_error w n = Some p /\ lists p l /\ r = SRLen (Z.of_nat (length l)) /\ w' = w
    | SBool n => exists p b, nth_error w n = Some p /\ says b (exists x, p x = true) /\ r = SRBool b /\ w' = w
    | SIter n => exists p l, nth_error w n = Some p /\ lists p l /\ r = SRItems l /\ w' = w
    | SAdd n x => exists p, nth_error w n = Some p /\ r = SNone
        /\ upd w n (fun y => if eq_dec y x then true else p y) w'
    | SDiscard n x => exists p, nth_error w n = Some p /\ r = SNone
        /\ upd w n (fun y => if eq_dec y x then false else p y) w'
    | SRemove n x => exists p, nth_error w n = Some p /\
        if p x then r = SNone /\ upd w n (fun y => if eq_dec y x then false else p y) w'
        else r = SRErr KeyError /\ w' = w
    | SPop n => exists p, nth_error w n = Some p /\
        ((r = SRErr KeyError /\ (forall x, p x = false) /\ w' = w) \/
         exists x, p x = true /\ r = SRItem x /\ upd w n (fun y => if eq_dec y x then false else p y) w')
    | SClear n => exists p, nth_error w n = Some p /\ r = SNone /\ upd w n (fun _ => false) w'
    | SIop o n a =>
        match a with
        | AIter _ => r = SRErr TypeError /\ w' = w
        | _ => exists p q, nth_error w n = Some p /\ p_arg w a q /\ r = SNone /\ upd w n (p_op o p q) w'
        end
    | SUpd o n a => exists p q, nth_error w n = Some p /\ p_arg w a q /\ r = SNone /\ upd w n (p_op o p q) w'
    | SUpdate n l => exists p q, nth_error w n = Some p /\ p_fold w LOr p l q /\ r = SNone /\ upd w n q w'
    | SOp o n a =>
        match a with
        | AIter _ => r = SRErr TypeError /\ w' = w
        | _ => exists p q, nth_error w n = Some p /\ p_arg w a q /\ created w (p_op o p q) r w'
        end
    | SRop o l n => exists p, nth_error w n = Some p /\ created w (p_op o (of_list l) p) r w'
    | SMeth o n l => exists p q, nth_error w n = Some p /\ p_fold w o p l q /\ created w q r w'
    | SCmp c n a =>
        match a with
        | AIter _ => w' = w /\ r = match c with CEq => SRBool false | CNe => SRBool true | _ => SRErr TypeError end
        | _ => exists p q b, nth_error w n = Some p /\ p_arg w a q /\ compares c p q b /\ r = SRBool b /\ w' = w
        end
    | SSub n a => exists p q b, nth_error w n = Some p /\ p_arg w a q /\ says b (subset p q) /\ r = SRBool b /\ w' = w
    | SSuper n a => exists p q b, nth_error w n = Some p /\ p_arg w a q /\ says b (subset q p) /\ r = SRBool b /\ w' = w
    | SDisj n a => exists p q b, nth_error w n = Some p /\ p_arg w a q
        /\ says b (forall x, ~ (p x = true /\ q x = true)) /\ r = SRBool b /\ w' = w
    end.
  Inductive spec_run : world -> list (sop A) -> list (sout A) -> world -> Prop :=
  | sr_nil w : spec_run w [] [] w
  | sr_cons w o r w1 l rs w2 : spec_step w o r w1 -> spec_run w1 l rs w2 -> spec_run w (o :: l) (r :: rs) w2.

  (** The lazy immutable sets, read as predicates. *)
  Fixpoint denotes (s : fset A) : pset :=
    match s with
    | FLin l => of_list l
    | FSing y => of_list [y]
    | FEmpty | FRef _ => fun _ => false
    | FComb o a b => p_op o (denotes a) (denotes b)
    end.
  (** Distinct items in every LinearSet; no reference to a mutable set. *)
  Fixpoint ok (s : fset A) : Prop :=
    match s with
    | FLin l => NoDup l
    | FSing _ | FEmpty => True
    | FComb _ a b => ok a /\ ok b
    | FRef _ => False
    end.

  (** Operations whose result cannot hold a reference to a mutable set: all but [s - t]
      with a mutable set t, and the methods called without arguments. *)
  Definition no_alias (o : sop A) : Prop :=
    match o with
    | SOp LSub _ (ASet _) => False
    | SMeth _ _ [] => False
    | _ => True
    end.
  Definition objs (o : sop A) : list (sarg A) :=
    match o with
    | SNew _ => []
    | SCopy n | SContains n _ | SLen n | SBool n | SIter n | SAdd n _ | SDiscard n _ | SRemove n _
    | SPop n | SClear n => [ASet n]
    | SRop _ l n => [ASet n; AFrozen l]
    | SIop _ n a | SUpd _ n a | SOp _ n a | SCmp _ n a | SSub n a | SSuper n a | SDisj n a => [ASet n; a]
    | SUpdate n l | SMeth _ n l => ASet n :: l
    end.
  Definition creates (o : sop A) : bool :=
    match o with
    | SNew _ | SCopy _ | SRop _ _ _ | SMeth _ _ _ => true
    | SOp _ _ (AIter _) => false
    | SOp _ _ _ => true
    | _ => false
    end.

  (** [sized k ops]: every set named in the history exists when it is used, k being the
      number of sets at its start. *)
  Fixpoint sized (k : nat) (ops : list (sop A)) : Prop :=
    match ops with
    | [] => True
    | o :: ops =>
        Forall (fun a => match a with ASet n => (n < k)%nat | AFrozen l => NoDup l | AIter _ => True end) (objs o)
        /\ sized (if creates o then S k else k) ops
    end.
End Spec.
