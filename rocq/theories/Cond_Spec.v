(** What the author of a condition means by it. *)
From Coq Require Import String List Bool.
From Verif Require Import Cond_Model.
Import ListNotations.
Open Scope string_scope.

Section Spec.
  Variables (Val St Exc : Type).
  Notation expr := (expr Val). Notation names := (names Val). Notation M := (M St Exc).
  Variable true_val : Val.
  Variable name_error : string -> Exc.
  Variable call : Val -> list Val -> list (string * Val) -> M Val.
  Variable truth : Val -> M bool.
  Variable items : Val -> M (list Val).
  Variable pack : list Val -> Val.
  Variable oper : string -> list Val -> M Val.

  
  (** The meaning of an expression in an environment: Python's rules, and "implies(x, y)": y is looked at only
      if x is true (keyword arguments are not allowed, and ignored if there are any).  [means env e s r s']: started in state s, e gives r and leaves s'. *)
  Inductive means : names -> expr -> St -> Val + Exc -> St -> Prop :=
  | m_name env x v s : env x = Some v -> means env (Name _ x) s (inl v) s
  | m_no_name env x s : env x = None -> means env (Name _ x) s (inr (name_error x)) s
  | m_const env v s : means env (Const _ v) s (inl v) s
  (* implies *)
  | m_implies_exc env a b kw s e s' : means env a s (inr e) s' -> means env (Call _ (Name _ "implies") [a; b] kw) s (inr e) s'
  | m_implies_truth_exc env a b kw s v s1 e s2 : means env a s (inl v) s1 -> truth v s1 = ((inr e), s2) ->
      means env (Call _ (Name _ "implies") [a; b] kw) s (inr e) s2
  | m_implies_false env a b kw s v s1 s2 : means env a s (inl v) s1 -> truth v s1 = ((inl false), s2) ->
      means env (Call _ (Name _ "implies") [a; b] kw) s (inl true_val) s2
  | m_implies_true env a b kw s v s1 s2 r s3 : means env a s (inl v) s1 -> truth v s1 = ((inl true), s2) -> means env b s2 r s3 ->
      means env (Call _ (Name _ "implies") [a; b] kw) s r s3
  (* other calls *)
  | m_call_f env f args kw s e s' : f <> Name _ "implies" -> means env f s (inr e) s' -> means env (Call _ f args kw) s (inr e) s'
  | m_call_args env f args kw s g s1 e s2 : f <> Name _ "implies" -> means env f s (inl g) s1 -> all_mean env args s1 (inr e) s2 ->
      means env (Call _ f args kw) s (inr e) s2
  | m_call_kw env f args kw s g s1 vs s2 e s3 : f <> Name _ "implies" -> means env f s (inl g) s1 -> all_mean env args s1 (inl vs) s2 ->
      all_mean env (map snd kw) s2 (inr e) s3 -> means env (Call _ f args kw) s (inr e) s3
  | m_call env f args kw s g s1 vs s2 ws s3 r s4 : f <> Name _ "implies" -> means env f s (inl g) s1 -> all_mean env args s1 (inl vs) s2 ->
      all_mean env (map snd kw) s2 (inl ws) s3 -> call g vs (combine (map fst kw) ws) s3 = (r, s4) -> means env (Call _ f args kw) s r s4
  (* conditional expressions, and, or *)
  | m_if_exc env c t e s x s' : means env c s (inr x) s' -> means env (IfExp _ c t e) s (inr x) s'
  | m_if_truth env c t e s v s1 x s2 : means env c s (inl v) s1 -> truth v s1 = ((inr x), s2) -> means env (IfExp _ c t e) s (inr x) s2
  | m_if env c t e s v s1 b s2 r s3 : means env c s (inl v) s1 -> truth v s1 = ((inl b), s2) -> means env (if b : bool then t else e) s2 r s3 ->
      means env (IfExp _ c t e) s r s3
  | m_and_exc env a b s x s' : means env a s (inr x) s' -> means env (And _ a b) s (inr x) s'
  | m_and_truth env a b s v s1 x s2 : means env a s (inl v) s1 -> truth v s1 = ((inr x), s2) -> means env (And _ a b) s (inr x) s2
  | m_and_false env a b s v s1 s2 : means env a s (inl v) s1 -> truth v s1 = ((inl false), s2) -> means env (And _ a b) s (inl v) s2
  | m_and_true env a b s v s1 s2 r s3 : means env a s (inl v) s1 -> truth v s1 = ((inl true), s2) -> means env b s2 r s3 -> means env (And _ a b) s r s3
  | m_or_exc env a b s x s' : means env a s (inr x) s' -> means env (Or _ a b) s (inr x) s'
  | m_or_truth env a b s v s1 x s2 : means env a s (inl v) s1 -> truth v s1 = ((inr x), s2) -> means env (Or _ a b) s (inr x) s2
  | m_or_true env a b s v s1 s2 : means env a s (inl v) s1 -> truth v s1 = ((inl true), s2) -> means env (Or _ a b) s (inl v) s2
  | m_or_false env a b s v s1 s2 r s3 : means env a s (inl v) s1 -> truth v s1 = ((inl false), s2) -> means env b s2 r s3 -> means env (Or _ a b) s r s3
  (* comprehensions: the variable hides an outer name *)
  | m_each_exc env x o b s e s' : means env o s (inr e) s' -> means env (Each _ x o b) s (inr e) s'
  | m_each_items env x o b s v s1 e s2 : means env o s (inl v) s1 -> items v s1 = ((inr e), s2) -> means env (Each _ x o b) s (inr e) s2
  | m_each_body env x o b s v s1 l s2 e s3 : means env o s (inl v) s1 -> items v s1 = ((inl l), s2) -> each_means env x b l s2 (inr e) s3 ->
      means env (Each _ x o b) s (inr e) s3
  | m_each env x o b s v s1 l s2 r s3 : means env o s (inl v) s1 -> items v s1 = ((inl l), s2) -> each_means env x b l s2 (inl r) s3 ->
      means env (Each _ x o b) s (inl (pack r)) s3
  | m_op_exc env o args s e s' : all_mean env args s (inr e) s' -> means env (Op _ o args) s (inr e) s'
  | m_op env o args s vs s1 r s2 : all_mean env args s (inl vs) s1 -> oper o vs s1 = (r, s2) -> means env (Op _ o args) s r s2
  with all_mean : names -> list expr -> St -> list Val + Exc -> St -> Prop :=
  | all_nil env s : all_mean env [] s (inl []) s
  | all_first env e l s x s' : means env e s (inr x) s' -> all_mean env (e :: l) s (inr x) s'
  | all_rest env e l s v s1 x s2 : means env e s (inl v) s1 -> all_mean env l s1 (inr x) s2 -> all_mean env (e :: l) s (inr x) s2
  | all_cons env e l s v s1 vs s2 : means env e s (inl v) s1 -> all_mean env l s1 (inl vs) s2 -> all_mean env (e :: l) s (inl (v :: vs)) s2
  with each_means : names -> string -> expr -> list Val -> St -> list Val + Exc -> St -> Prop :=
  | each_nil env x b s : each_means env x b [] s (inl []) s
  | each_first env x b v l s e s' : means (fun y => if String.eqb y x then Some v else env y) b s (inr e) s' -> each_means env x b (v :: l) s (inr e) s'
  | each_rest env x b v l s r s1 e s2 : means (fun y => if String.eqb y x then Some v else env y) b s (inl r) s1 -> each_means env x b l s1 (inr e) s2 ->
      each_means env x b (v :: l) s (inr e) s2
  | each_cons env x b v l s r s1 rs s2 : means (fun y => if String.eqb y x then Some v else env y) b s (inl r) s1 -> each_means env x b l s1 (inl rs) s2 ->
      each_means env x b (v :: l) s (inl (r :: rs)) s2.

  (** Every call of "implies" in the expression has two arguments; [strict]: and no keyword arguments. *)
  Variable strict : bool.
  Inductive implies_ok : expr -> Prop :=
  | i_name x : implies_ok (Name _ x)
  | i_const v : implies_ok (Const _ v)
  | i_call f args kw : (f = Name _ "implies" -> length args = 2 /\ (strict = true -> kw = [])) -> implies_ok f -> Forall implies_ok args -> Forall implies_ok (map snd kw) -> implies_ok (Call _ f args kw)
  | i_if c t e : implies_ok c -> implies_ok t -> implies_ok e -> implies_ok (IfExp _ c t e)
  | i_and a b : implies_ok a -> implies_ok b -> implies_ok (And _ a b)
  | i_or a b : implies_ok a -> implies_ok b -> implies_ok (Or _ a b)
  | i_each x o b : implies_ok o -> implies_ok b -> implies_ok (Each _ x o b)
  | i_op o args : Forall implies_ok args -> implies_ok (Op _ o args).

  (** What a name stands for in the function that has the contract: a parameter, a variable of the enclosing
      function, a global, a built-in. *)
  Definition first_of (l : list (option Val)) : option Val := fold_right (fun a b => match a with Some v => Some v | None => b end) None l.
  Definition python_name (f : func Val) (args : names) (x : string) : option Val :=
    first_of [args x; of_list _ (nonlocals _ f) x; globals _ f x; builtins _ f x].
  (** A postcondition also has the result and the old arguments; a parameter with one of these names would be
      ambiguous. *)
  Variable holder : names -> Val.
  Definition special (original : names) (result : option Val) (x : string) : option Val :=
    if String.eqb x "__old__" then Some (holder original)
    else if String.eqb x "__return__" || String.eqb x "_" then result else None.
  Definition condition_name (f : func Val) (args original : names) (result : option Val) (x : string) : option Val :=
    match special original result x with Some v => Some v | None => python_name f args x end.
End Spec.
