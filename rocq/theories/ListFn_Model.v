(** Model of builtins whose C implementations CrossHair replaces: list.index, the reprs of
    lists, tuples and dicts, and str.join; crosshair/libimpl/builtinslib.py 5195-5262, 5365-5369. *)
From Coq Require Import ZArith List Bool.
From Verif Require Import Py Range_Spec PySeq_Spec.
Import ListNotations.
Open Scope Z_scope.

Section Index.
Variable A : Type.
Variable eqb : A -> A -> bool.   (* == *)
(** 5215-5219 *)
Fixpoint scan (l : list A) (x : A) (idx : Z) : res Z :=
  match l with [] => Err ValueError | y :: r => if eqb x y then Ok idx else scan r x (idx + 1) end.
(** 5203-5219 _list_index; the bounds are None when they are the default objects *)
Definition list_index (self : list A) (x : A) (start stop : option Z) : res Z :=
  match start, stop with
  | None, None => scan self x 0
  | _, _ =>
      (* an absent bound is still the default value 0 or 9223372036854775807 (146-147) *)
      let start := match start with None => 0 | Some a => a end in
      let stop := match stop with None => 9223372036854775807 | Some b => b end in
      do self <- py_slice self (mkSl (Some start) (Some stop) None); scan self x 0
  end.
End Index.

Definition str := list Z.
(** ", ".join and str.join: 5245-5258 _join *)
Fixpoint join_from (sep : str) (result : str) (idx : Z) (items : list str) : str :=
  match items with
  | [] => result
  | item :: items =>
      let result := if 0 <? idx then result ++ sep else result in
      join_from sep (result ++ item) (idx + 1) items
  end.
Definition join (sep : str) (items : list str) : str := join_from sep [] 0 items.
Definition comma : str := [44; 32].
(** 5222-5227 _list_repr, 5365-5369 _tuple_repr, 5195-5199 _dict_repr; the items are given by
    their reprs.  Containers that contain themselves are not modelled. *)
Definition list_repr (items : list str) : str := [91] ++ join comma items ++ [93].
Definition tuple_repr (items : list str) : str := [40] ++ join comma items ++ [41].
Definition dict_repr (items : list (str * str)) : str :=
  [123] ++ join comma (map (fun kv => fst kv ++ [58; 32] ++ snd kv) items) ++ [125].
