(** statespace.py 1181-1232 smt_fanout, and its user MultiSubscriptableContainer,
    opcode_intercept.py 79-201.  The forks are read under one assignment: smt_fork(e) answers
    the truth of e. *)
From Coq Require Import ZArith QArith List Bool Arith.
From Verif Require Import Py.
Import ListNotations.

(** sum() of a slice of weights *)
Definition qsum (l : list Q) : Q := fold_right Qplus 0%Q l.
Definition slice {A} (l : list A) (a b : nat) : list A := firstn (b - a) (skipn a l).

Section Attempt.
Variable R : Type.
(** the truth of the options' expressions, their results and weights *)
Variables (exprs : list bool) (results : list R) (weights : list Q).
(** 1213-1230 attempt.  Returns the result and the product of the probabilities that were
    requested for the answers given by the forks on the way. *)
Fixpoint attempt (fuel : nat) (start stop : nat) : res (R * Q) :=
  match fuel with
  | O => Err OutOfFuel
  | S fuel =>
    if (stop - start =? 1)%nat then match nth_error results start with Some r => Ok (r, 1%Q) | None => Err IndexError end else
    let mid := ((start + stop) / 2)%nat in
    let left_weight := qsum (slice weights start mid) in
    let right_weight := qsum (slice weights mid stop) in
    if Qeq_bool (left_weight + right_weight) 0 then Err ZeroDivisionError else
    let p := (left_weight / (left_weight + right_weight))%Q in
    if existsb (fun b => b) (slice exprs start mid)
    then do x <- attempt fuel start mid; Ok (fst x, (p * snd x)%Q)
    else do x <- attempt fuel mid stop; Ok (fst x, ((1 - p) * snd x)%Q)
  end.
End Attempt.
(** 1196-1201 and 1232.  [none_weight] is none_of_the_above_weight; the result None is
    NONE_OF_THE_ABOVE.  The checks of 1202-1214 (CROSSHAIR_EXTRA_ASSERTS) are off by default. *)
Definition smt_fanout {R} (options : list (bool * R)) (weights : option (list Q)) (none_weight : Q) : res (option R * Q) :=
  let exprs := map fst options in
  let results := map (fun o => Some (snd o)) options in
  let final_weights := match weights with None => repeat 1%Q (length exprs) | Some w => w end in
  if negb (Qle_bool none_weight 0)
  then attempt (option R) (exprs ++ [negb (existsb (fun b => b) exprs)]) (results ++ [None]) (final_weights ++ [none_weight]) (S (length exprs + 1)) 0 (length exprs + 1)
  else attempt (option R) exprs results final_weights (S (length exprs)) 0 (length exprs).

(** ** Subscripting a concrete container by a symbolic number: opcode_intercept.py 79-201 *)
Open Scope Z_scope.
(** Values: those that an SMT value of their Python type can represent (117-135), with their
    type, or objects with their identity. *)
Inductive value := Atomic (pytype : nat) (v : Z) | Object (id : nat).
(** The keys of the entries: numbers (index of a sequence, or key of a dict; an index n of
    type float is written as a fraction), or things that [==] a number is plainly False *)
Inductive entry_key := KNum (num : Z) (den : positive) | KOther.
(** The symbolic key: an int, a bool, or a float that is num/den *)
Inductive key_type := KInt | KFloat.
Record skey := mkKey { ktype : key_type; knum : Z; kden : positive }.
(** [key == cur_key]: None is the literal False *)
Definition key_eq (k : skey) (e : entry_key) : option bool :=
  match e with KNum n d => Some (knum k * Zpos d =? n * Zpos (kden k)) | KOther => None end.
(** 79-100 reachable_sequence_pairs; [neg], [nonneg] are the answers of is_possible *)
Definition enumerate (container : list value) : list (Z * value) := combine (map Z.of_nat (seq 0 (length container))) container.
Definition reachable_sequence_pairs (neg nonneg : bool) (container : list value) : list (entry_key * value) :=
  let length := Z.of_nat (length container) in
  (if negb neg || nonneg then map (fun iv => (KNum (fst iv) 1, snd iv)) (enumerate container) else []) ++
  (if neg then map (fun iv => (KNum (fst iv - length) 1, snd iv)) (enumerate container) else []).

(** dictionaries (ordered) of lists: values_by_type, keys_by_value_id *)
Fixpoint add_to {A} (k : nat) (x : A) (d : list (nat * list A)) : list (nat * list A) :=
  match d with
  | [] => [(k, [x])]
  | (k', l) :: d => if (k =? k')%nat then (k', l ++ [x]) :: d else (k', l) :: add_to k x d
  end.
(** 111-135 *)
Fixpoint group (pairs : list (entry_key * value)) (by_type : list (nat * list (entry_key * Z))) (by_id : list (nat * list entry_key)) :=
  match pairs with
  | [] => (by_type, by_id)
  | (k, Atomic t v) :: pairs => group pairs (add_to t (k, v) by_type) by_id
  | (k, Object i) :: pairs => group pairs by_type (add_to i k by_id)
  end.
(** 143-162 *)
Fixpoint conds_and_values (k : skey) (l : list (entry_key * Z)) : list (bool * Z) :=
  match l with
  | [] => []
  | (e, v) :: l => match key_eq k e with Some b => (b, v) :: conds_and_values k l | None => conds_and_values k l end
  end.
(** 171-173: the if-then-else chain *)
Fixpoint ite_chain (l : list (bool * Z)) : Z :=
  match l with
  | [] => 0
  | [(_, v)] => v
  | (c, v) :: l => if c then v else ite_chain l
  end.
Fixpoint type_options (k : skey) (by_type : list (nat * list (entry_key * Z))) : list (bool * value) :=
  match by_type with
  | [] => []
  | (t, l) :: rest =>
    let cv := conds_and_values k l in
    match cv with
    | [] => type_options k rest
    | _ => (existsb fst cv, Atomic t (ite_chain cv)) :: type_options k rest
    end
  end.
(** 176-183: any() of the comparisons (builtinslib.py 4781-4802): a symbolic bool unless all
    of them are plainly False *)
Fixpoint id_options (k : skey) (by_id : list (nat * list entry_key)) : list (bool * value) :=
  match by_id with
  | [] => []
  | (i, l) :: rest =>
    let cs := flat_map (fun e => match key_eq k e with Some b => [b] | None => [] end) l in
    match cs with
    | [] => id_options k rest
    | _ => (existsb (fun b => b) cs, Object i) :: id_options k rest
    end
  end.
(** 107-196 *)
Definition multi_getitem (k : skey) (pairs : list (entry_key * value)) (raise_type : exc) : res value :=
  let '(by_type, by_id) := group pairs [] [] in
  let options := type_options k by_type ++ id_options k by_id in
  match options with
  | [] => Err raise_type
  | _ => do r <- smt_fanout options None 1%Q; match fst r with Some v => Ok v | None => Err raise_type end
  end.
Definition seq_getitem (neg nonneg : bool) (container : list value) (k : skey) : res value :=
  multi_getitem k (reachable_sequence_pairs neg nonneg container) IndexError.
Definition dict_getitem (items : list (entry_key * value)) (k : skey) : res value := multi_getitem k items KeyError.
