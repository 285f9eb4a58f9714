(** A Python dict, as the language reference describes it: a finite map from keys to
    values together with the order in which the keys were inserted.  Updating a key
    keeps its place; deleting and reinserting it moves it to the end; popitem removes
    the last key. *)
From Coq Require Import ZArith List Bool.
From Verif Require Import Py Map_Model.
Import ListNotations.
Open Scope Z_scope.

Section Dict.
  Context {K V : Type}.
  Variable eq_dec : forall x y : K, {x = y} + {x <> y}.

  Record dict := mkDict { order : list K; value : K -> option V }.

  Definition d_empty : dict := mkDict [] (fun _ => None).
  Definition d_set (d : dict) (k : K) (v : V) : dict :=
    mkDict (match value d k with Some _ => order d | None => order d ++ [k] end)
           (fun k' => if eq_dec k' k then Some v else value d k').
  Definition d_remove (d : dict) (k : K) : dict :=
    mkDict (remove eq_dec k (order d)) (fun k' => if eq_dec k' k then None else value d k').
  Definition d_update (d : dict) (l : list (K * V)) : dict :=
    fold_left (fun d '(k, v) => d_set d k v) l d.
  Definition d_of (l : list (K * V)) : dict := d_update d_empty l.

  (** Every ordered key has a value, no other key has; no key is listed twice. *)
  Definition d_ok (d : dict) : Prop :=
    NoDup (order d) /\ forall k, In k (order d) <-> value d k <> None.

  Definition d_step (d : dict) (o : dop K V) : mout K V * dict :=
    match o with
    | DMap (MGet k) => (match value d k with Some v => RVal v | None => RErr KeyError end, d)
    | DMap (MContains k) => (RBool (match value d k with Some _ => true | None => false end), d)
    | DMap MLen => (RLen (Z.of_nat (length (order d))), d)
    | DMap MBool => (RBool (match order d with [] => false | _ => true end), d)
    | DMap (MSet k v) => (RNone, d_set d k v)
    | DMap (MDel k) => match value d k with Some _ => (RNone, d_remove d k) | None => (RErr KeyError, d) end
    | DMap (MPop k x) => match value d k, x with
                  | Some v, _ => (RVal v, d_remove d k)
                  | None, Some x => (RVal x, d)
                  | None, None => (RErr KeyError, d)
                  end
    | DMap (MSetDefault k v) => match value d k with Some w => (RVal w, d) | None => (RVal v, d_set d k v) end
    | DMap (MUpdate l) => (RNone, d_update d l)
    | DMap MClear => (RNone, d_empty)
    | DPopItem => match rev (order d) with
                  | [] => (RErr KeyError, d)
                  | k :: _ => match value d k with Some v => (RItem k v, d_remove d k) | None => (RErr KeyError, d) end
                  end
    | DKeys => (RKeys (order d), d)
    | DReversed => (RKeys (rev (order d)), d)
    end.
  Fixpoint d_run (d : dict) (l : list (dop K V)) : list (mout K V) * dict :=
    match l with
    | [] => ([], d)
    | o :: l => let '(r, d) := d_step d o in let '(rs, d) := d_run d l in (r :: rs, d)
    end.

  (** Dict equality: the same keys with equal values, in whatever order. *)
  Definition d_equal (d1 d2 : dict) : Prop := forall k, value d1 k = value d2 k.
End Dict.
Arguments dict : clear implicits.
