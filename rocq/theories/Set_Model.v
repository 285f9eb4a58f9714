(** Model of crosshair/simplestructs.py 829-1246: the lazy immutable sets (LinearSet,
    SingletonSet, EmptySet, LazySetCombination) and the mutable set over them
    (ShellMutableSet), with the mixin methods of collections.abc.Set.

    Elements are hashable values whose [==] is [eqb]; the is_hashable checks always
    pass.  ShellMutableSet objects live on a heap (their [_inner] is replaced, never
    mutated); frozensets and symbolic frozensets appear as the sequence of elements
    they iterate. Built-in mutable sets as arguments are not modelled. *)
From Coq Require Import ZArith List Bool.
From Verif Require Import Py.
Import ListNotations.
Open Scope Z_scope.

(** The functions passed to LazySetCombination: operator.or_ / and_ / xor (1171,
    1181, 1191) and the lambdas of 1201 and 1209. *)
Inductive lop := LOr | LAnd | LXor | LSub | LRsub.
Definition lop_fn (o : lop) (x y : bool) : bool :=
  match o with
  | LOr => x || y
  | LAnd => x && y
  | LXor => xorb x y
  | LSub => x && negb y
  | LRsub => y && negb x
  end.

Section Sets.
  Context {A : Type}.
  Variable eqb : A -> A -> bool.

  (** FLin: LinearSet over unique items (and frozenset); FRef n: the ShellMutableSet
      object n itself (kept by reference by __sub__, 1201). *)
  Inductive fset :=
  | FLin (items : list A)
  | FSing (x : A)
  | FEmpty
  | FComb (o : lop) (a b : fset)
  | FRef (n : nat).
  Definition heap := list fset.

  Definition memb (x : A) (l : list A) : bool := existsb (eqb x) l.
  (** 983-992 check_unique_and_create *)
  Definition uniq (seq : list A) : list A :=
    fold_left (fun accepted item => if memb item accepted then accepted else accepted ++ [item]) seq [].

  Fixpoint filterM (f : A -> res bool) (l : list A) : res (list A) :=
    match l with
    | [] => Ok []
    | x :: l => do b <- f x; do r <- filterM f l; Ok (if b then x :: r else r)
    end.

  (** __contains__: 951-952 SingletonSet, 962-965 EmptySet, 994-1000 LinearSet,
      1031-1034 LazySetCombination, 1094-1095 ShellMutableSet.  The fuel bounds the
      references followed (the Python stack). *)
  Fixpoint contains (fuel : nat) (h : heap) : fset -> A -> res bool :=
    fix go (s : fset) (x : A) : res bool :=
      match s with
      | FLin items => Ok (existsb (fun item => eqb x item) items)
      | FSing item => Ok (eqb x item)
      | FEmpty => Ok false
      | FComb o a b => do ina <- go a x; do inb <- go b x; Ok (lop_fn o ina inb)
      | FRef n => match fuel, nth_error h n with
                  | S f, Some s' => contains f h s' x
                  | _, _ => Err OutOfFuel
                  end
      end.

  (** __iter__: 954, 967, 1002-1004, 1036-1050, 1097-1099 *)
  Fixpoint iter (fuel : nat) (h : heap) : fset -> res (list A) :=
    fix go (s : fset) : res (list A) :=
      match s with
      | FLin items => Ok items
      | FSing item => Ok [item]
      | FEmpty => Ok []
      | FComb o a b =>
          do la <- go a;
          do ra <- filterM (fun x => do inb <- contains fuel h b x; Ok (lop_fn o true inb)) la;
          do lb <- go b;
          do rb <- filterM (fun x => do ina <- contains fuel h a x;
                                     Ok (if ina then false else lop_fn o ina true)) lb;
          Ok (ra ++ rb)
      | FRef n => match fuel, nth_error h n with
                  | S f, Some s' => iter f h s'
                  | _, _ => Err OutOfFuel
                  end
      end.
  (** __len__: 957, 971, 1006, 1052, 1101 *)
  Definition len (fuel : nat) (h : heap) (s : fset) : res Z :=
    do l <- iter fuel h s; Ok (Z.of_nat (length l)).
  (** SetBase.__bool__ 846-852 *)
  Definition truth (fuel : nat) (h : heap) (s : fset) : res bool :=
    do l <- iter fuel h s; Ok (match l with [] => false | _ => true end).

  Section Ops.
    Variable fuel : nat.
    (** collections.abc.Set: __le__, __lt__, __ge__, __gt__, __eq__ on two sets *)
    Fixpoint all_in (h : heap) (l : list A) (s : fset) : res bool :=
      match l with
      | [] => Ok true
      | x :: l => do b <- contains fuel h s x; if b then all_in h l s else Ok false
      end.
    Definition abc_le (h : heap) (a b : fset) : res bool :=
      do la <- len fuel h a; do lb <- len fuel h b;
      if lb <? la then Ok false else do l <- iter fuel h a; all_in h l b.
    Definition abc_ge (h : heap) (a b : fset) : res bool :=
      do la <- len fuel h a; do lb <- len fuel h b;
      if la <? lb then Ok false else do l <- iter fuel h b; all_in h l a.
    Definition abc_lt (h : heap) (a b : fset) : res bool :=
      do la <- len fuel h a; do lb <- len fuel h b;
      if la <? lb then abc_le h a b else Ok false.
    Definition abc_gt (h : heap) (a b : fset) : res bool :=
      do la <- len fuel h a; do lb <- len fuel h b;
      if lb <? la then abc_ge h a b else Ok false.
    Definition abc_eq (h : heap) (a b : fset) : res bool :=
      do la <- len fuel h a; do lb <- len fuel h b;
      if la =? lb then abc_le h a b else Ok false.
    (** collections.abc.Set.__sub__, __and__, __or__, __xor__ through
        FrozenSetBase._from_iterable (936-938), reached from SetBase 857-884 *)
    Definition abc_sub (h : heap) (a b : fset) : res fset :=
      do la <- iter fuel h a;
      do r <- filterM (fun x => do i <- contains fuel h b x; Ok (negb i)) la; Ok (FLin (uniq r)).
    Definition abc_and (h : heap) (a b : fset) : res fset :=
      do lb <- iter fuel h b; do r <- filterM (fun x => contains fuel h a x) lb; Ok (FLin (uniq r)).
    Definition abc_or (h : heap) (a b : fset) : res fset :=
      do la <- iter fuel h a; do lb <- iter fuel h b; Ok (FLin (uniq (la ++ lb))).
    Definition abc_xor (h : heap) (a b : fset) : res fset :=
      do x <- abc_sub h a b; do y <- abc_sub h b a; abc_or h x y.

    (** Arguments: another mutable set, a frozenset, or any other iterable *)
    Inductive sarg := ASet (n : nat) | AFrozen (l : list A) | AIter (l : list A).

    (** 829-842 _force_arg_to_set *)
    Definition force (h : heap) (a : sarg) : res fset :=
      match a with
      | ASet n => match nth_error h n with Some s => Ok s | None => Err OutOfFuel end
      | AFrozen l => Ok (FLin l)
      | AIter l => Ok (FLin (uniq l))
      end.

    Inductive cmp := CEq | CNe | CLe | CLt | CGe | CGt.
    Inductive sop :=
    | SNew (l : list A)                       (* set(iterable), 1069-1080 *)
    | SCopy (n : nat)                         (* SetBase.copy 886 *)
    | SContains (n : nat) (x : A) | SLen (n : nat) | SBool (n : nat) | SIter (n : nat)
    | SAdd (n : nat) (x : A) | SDiscard (n : nat) (x : A) | SRemove (n : nat) (x : A)
    | SPop (n : nat) | SClear (n : nat)
    | SIop (o : lop) (n : nat) (a : sarg)     (* |= &= ^= -= *)
    | SUpd (o : lop) (n : nat) (a : sarg)     (* difference_update etc., one argument *)
    | SUpdate (n : nat) (l : list sarg)       (* update *)
    | SOp (o : lop) (n : nat) (a : sarg)      (* | & ^ - *)
    | SRop (o : lop) (l : list A) (n : nat)   (* frozenset | s, ... *)
    | SMeth (o : lop) (n : nat) (l : list sarg) (* union, intersection, difference, symmetric_difference *)
    | SCmp (c : cmp) (n : nat) (a : sarg)
    | SSub (n : nat) (a : sarg) | SSuper (n : nat) (a : sarg) | SDisj (n : nat) (a : sarg).

    Inductive sout := SNone | SRBool (b : bool) | SRLen (n : Z) | SRItem (x : A)
    | SRItems (l : list A) | SRObj (n : nat) | SRErr (e : exc).

    Fixpoint set_nth (h : heap) (n : nat) (s : fset) : heap :=
      match h, n with
      | [], _ => []
      | _ :: h, O => s :: h
      | x :: h, S n => x :: set_nth h n s
      end.
    Definition get (h : heap) (n : nat) : res fset :=
      match nth_error h n with Some s => Ok s | None => Err OutOfFuel end.
    Definition new (h : heap) (s : fset) : sout * heap := (SRObj (length h), h ++ [s]).
    (** run a computation; an exception leaves the heap as it was *)
    Definition ret (h : heap) (r : res (sout * heap)) : sout * heap :=
      match r with Ok x => x | Err e => (SRErr e, h) end.

    Definition is_set (a : sarg) : bool := match a with AIter _ => false | _ => true end.

    (** 1134-1135, 1142-1143, 1158-1159: the _update methods go through the inner set's
        own method (889-897, 908-909) *)
    Definition inner_op (o : lop) (h : heap) (s : fset) (a : sarg) : res fset :=
      do t <- force h a;
      match o with
      | LOr => Ok (FComb LOr s t)
      | LAnd => abc_and h s t
      | LXor => abc_xor h s t
      | LSub => abc_sub h s t
      | LRsub => abc_sub h t s
      end.

    (** the operand of a binary operator: forced (1171, 1181, 1191), except by __sub__,
        which keeps the mutable set itself (1201) *)
    Definition operand (o : lop) (h : heap) (a : sarg) : res fset :=
      match o, a with
      | LSub, ASet n => Ok (FRef n)
      | _, _ => force h a
      end.

    Definition fold_meth (o : lop) (h : heap) (s : fset) (l : list sarg) : res fset :=
      fold_left (fun acc a => do s <- acc; do t <- force h a; Ok (FComb o s t)) l (Ok s).

    (** 1104-1120 *)
    Definition compare (c : cmp) (h : heap) (s : fset) (a : sarg) : res bool :=
      if is_set a then
        do t <- (match a with ASet n => Ok (FRef n) | _ => force h a end);
        match c with
        | CEq => abc_eq h s t
        | CNe => do b <- abc_eq h s t; Ok (negb b)
        | CLe => abc_le h s t
        | CLt => abc_lt h s t
        | CGe => abc_ge h s t
        | CGt => abc_gt h s t
        end
      else match c with CEq => Ok false | CNe => Ok true | _ => Err TypeError end.

    (** 1137-1140 discard: [self -= SingletonSet(x)] *)
    Definition discard (h : heap) (n : nat) (x : A) : res heap :=
      do s <- get h n; Ok (set_nth h n (FComb LSub s (FSing x))).
    (** 1153-1156 remove *)
    Definition remove (h : heap) (n : nat) (x : A) : res heap :=
      do s <- get h n; do b <- contains fuel h s x;
      if b then discard h n x else Err KeyError.

    Definition step (h : heap) (o : sop) : sout * heap :=
      match o with
      | SNew l => new h (FLin (uniq l))
      | SCopy n => ret h (do s <- get h n; Ok (new h s))
      | SContains n x => ret h (do s <- get h n; do b <- contains fuel h s x; Ok (SRBool b, h))
      | SLen n => ret h (do s <- get h n; do z <- len fuel h s; Ok (SRLen z, h))
      | SBool n => ret h (do s <- get h n; do b <- truth fuel h s; Ok (SRBool b, h))
      | SIter n => ret h (do s <- get h n; do l <- iter fuel h s; Ok (SRItems l, h))
      (* 1126-1129 *)
      | SAdd n x => ret h (do s <- get h n; Ok (SNone, set_nth h n (FComb LOr s (FSing x))))
      | SDiscard n x => ret h (do h' <- discard h n x; Ok (SNone, h'))
      | SRemove n x => ret h (do h' <- remove h n x; Ok (SNone, h'))
      (* 1145-1151 *)
      | SPop n => ret h (do s <- get h n; do l <- iter fuel h s;
                         match l with
                         | [] => Err KeyError
                         | x :: _ => do h' <- remove h n x; Ok (SRItem x, h')
                         end)
      (* 1131-1132; frozenset() gives an empty LinearSet while tracing (builtinslib.py 5019) *)
      | SClear n => ret h (do s <- get h n; Ok (SNone, set_nth h n (FLin [])))
      (* 1212-1246 *)
      | SIop o n a => if is_set a then
                        ret h (do s <- get h n; do t <- force h a; Ok (SNone, set_nth h n (FComb o s t)))
                      else (SRErr TypeError, h)
      | SUpd o n a => ret h (do s <- get h n; do s' <- inner_op o h s a; Ok (SNone, set_nth h n s'))
      (* 1161-1164 *)
      | SUpdate n l => ret h (do s <- get h n; do s' <- fold_meth LOr h s l; Ok (SNone, set_nth h n s'))
      (* 1166-1210 *)
      | SOp o n a => if is_set a then
                       ret h (do s <- get h n; do t <- operand o h a; Ok (new h (FComb o s t)))
                     else (SRErr TypeError, h)
      | SRop o l n => ret h (do s <- get h n;
                             Ok (new h (FComb (match o with LSub => LRsub | LRsub => LSub | _ => o end) s (FLin l))))
      (* 889-897, 908-914: with no arguments the object itself is returned *)
      | SMeth o n l => match l with
                       | [] => (SRObj n, h)
                       | _ => ret h (do s <- get h n; do s' <- fold_meth o h s l; Ok (new h s'))
                       end
      | SCmp c n a => ret h (do s <- get h n; do b <- compare c h s a; Ok (SRBool b, h))
      (* 902-906 *)
      | SSub n a => ret h (do s <- get h n; do t <- force h a; do b <- abc_le h s t; Ok (SRBool b, h))
      | SSuper n a => ret h (do s <- get h n; do t <- force h a; do b <- abc_ge h s t; Ok (SRBool b, h))
      (* 899-900 *)
      | SDisj n a => ret h (do s <- get h n; do t <- inner_op LAnd h s a; do b <- truth fuel h t; Ok (SRBool (negb b), h))
      end.
    Fixpoint run (h : heap) (l : list sop) : list sout * heap :=
      match l with
      | [] => ([], h)
      | o :: l => let '(r, h) := step h o in let '(rs, h) := run h l in (r :: rs, h)
      end.
  End Ops.
End Sets.
Arguments fset : clear implicits.
Arguments sarg : clear implicits.
Arguments sop : clear implicits.
Arguments sout : clear implicits.
