(* dict(...) as the language has it. *)
From Coq Require Import ZArith List Bool.
From Verif Require Import Py Map_Model Map_Spec DictNew_Model.
Import ListNotations.
Open Scope Z_scope.

Section Spec.
  Context {U : Type}.
  Variable eq_dec : forall x y : U, {x = y} + {x <> y}.
  Variable hashable : U -> bool.

  Definition elements (h : heap U) (x : item U) : option (list U) :=
    match x with ISized i => Some (h i) | IIter l => Some l | INone => None end.
  (** each pair in turn: TypeError if it cannot be iterated, ValueError if it has not two
      elements, TypeError if the key has no hash *)
  Fixpoint add_pairs (h : heap U) (l : list (item U)) (d : @Map_Spec.dict U U) : res (@Map_Spec.dict U U) :=
    match l with
    | [] => Ok d
    | x :: l =>
        match elements h x with
        | None => Err TypeError
        | Some [k; v] => if hashable k then add_pairs h l (d_set eq_dec d k v) else Err TypeError
        | Some _ => Err ValueError
        end
    end.
  Definition py_dict (h : heap U) (a : darg U) (kwargs : list (U * U)) : res (@Map_Spec.dict U U) :=
    bind (match a with
          | ANone => Ok d_empty
          | AMap l => Ok (d_of eq_dec l)
          | AIter l => add_pairs h l d_empty
          | AOther => Err TypeError
          end) (fun d => Ok (d_update eq_dec d kwargs)).

  (** a mapping has no key twice *)
  Definition arg_ok (a : darg U) : Prop := match a with AMap l => NoDup (map fst l) | _ => True end.
  (** no pair is an iterator, every key has a hash *)
  Definition sized_hashable (h : heap U) (a : darg U) : Prop :=
    match a with
    | AIter l => forall x, In x l -> match x with
                                     | ISized i => match h i with [k; _] => hashable k = true | _ => True end
                                     | IIter _ => False
                                     | INone => True
                                     end
    | _ => True
    end.
  (** the keys in the argument *)
  Definition arg_keys (h : heap U) (a : darg U) : list U :=
    match a with
    | AMap l => map fst l
    | AIter l => flat_map (fun x => match elements h x with Some [k; _] => [k] | _ => [] end) l
    | _ => []
    end.
End Spec.
