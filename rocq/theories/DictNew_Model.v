(* Model of crosshair/libimpl/builtinslib.py 4850-4882: _dict, which stands in for dict(...) on a
   path.  SimpleDict and ShellMutableMap are Map_Model's.

   Keys and values are of one type.  Hashability is a parameter (util.py 80-81).  The objects
   that give a key and its value may be changed later, so they are references into a heap. *)
From Coq Require Import ZArith List Bool.
From Verif Require Import Py Map_Model.
Import ListNotations.
Open Scope Z_scope.

Section New.
  Context {U : Type}.
  Variable eqb : U -> U -> bool.
  Variable hashable : U -> bool.

  (** what the argument's iterator yields: an object with a length, an iterator (which has no
      length), or something that cannot be iterated *)
  Inductive item := ISized (i : nat) | IIter (l : list U) | INone.
  (** the argument: none, a mapping, an iterable, something else *)
  Inductive darg := ANone | AMap (l : list (U * U)) | AIter (l : list item) | AOther.
  (** an entry of SimpleDict.contents_: the caller's object or a new tuple *)
  Inductive entry := Shared (i : nat) | Own (k v : U).
  Definition heap := nat -> list U.

  Definition read (h : heap) (e : entry) : list (U * U) :=
    match e with
    | Own k v => [(k, v)]
    | Shared i => match h i with [k; v] => [(k, v)] | _ => [] end
    end.

  (** 4862-4870: the loop over the pairs; [rest] is all_items, [keys] the keys so far, [clash]
      whether one of key_compares is true *)
  Fixpoint scan (h : heap) (l : list item) (keys : list U) (clash : bool) : res (list (nat * U * U) * bool) :=
    match l with
    | [] => Ok ([], clash)
    | INone :: _ | IIter _ :: _ => Err TypeError
    | ISized i :: l =>
        match h i with
        | [key; val] =>
            if negb (hashable key) then Err ValueError
            else bind (scan h l (keys ++ [key]) (clash || existsb (eqb key) keys)) (fun '(all, clash) =>
                   Ok ((i, key, val) :: all, clash))
        | _ => Err ValueError
        end
    end.
  (** 4874-4877: only the last value of each key, from the back *)
  Definition add_new (d : list (U * U)) (kv : U * U) : list (U * U) :=
    match sd_get eqb d (fst kv) with Ok _ => d | Err _ => sd_set eqb d (fst kv) (snd kv) end.
  Definition dict_entries (h : heap) (a : darg) : res (list entry) :=
    match a with
    | AMap l => Ok (map (fun kv => Own (fst kv) (snd kv)) l)
    | ANone => Ok []
    | AIter l =>
        bind (scan h l [] false) (fun '(all, clash) =>
          Ok (if negb clash then map (fun x => Shared (fst (fst x))) all
              else map (fun kv => Own (fst kv) (snd kv))
                     (fold_left add_new (rev (map (fun x => (snd (fst x), snd x)) all)) [])))
    | AOther => Err TypeError
    end.
  (** 4878-4881 the dictionary, as seen with the heap [h] *)
  Definition dict_seen (h : heap) (es : list entry) (kwargs : list (U * U)) : shell U U :=
    sh_update eqb (sh_init (flat_map (read h) es)) kwargs.
End New.
Arguments item : clear implicits.
Arguments darg : clear implicits.
Arguments entry : clear implicits.
Arguments heap : clear implicits.
