From Coq Require Import ZArith List Bool.
From Verif Require Import Py Fanout_Model.
Import ListNotations.
Open Scope Z_scope.
(** CPython: container[k] for a list or tuple *)
Definition py_seq_getitem (container : list value) (k : skey) : res value :=
  match ktype k with
  | KFloat => Err TypeError
  | KInt => let n := Z.of_nat (length container) in
            let i := knum k / Zpos (kden k) in
            let j := if i <? 0 then i + n else i in
            if (0 <=? j) && (j <? n) then match nth_error container (Z.to_nat j) with Some v => Ok v | None => Err IndexError end else Err IndexError
  end.
(** d[k]: the value of the entry whose key equals k *)
Definition same_number (k : skey) (e : entry_key) : Prop := match e with KNum n d => knum k * Zpos d = n * Zpos (kden k) | KOther => False end.
Inductive py_dict_getitem (items : list (entry_key * value)) (k : skey) : res value -> Prop :=
| dict_found e v : In (e, v) items -> same_number k e -> py_dict_getitem items k (Ok v)
| dict_missing : (forall e v, In (e, v) items -> ~ same_number k e) -> py_dict_getitem items k (Err KeyError).
(** The keys of a dict are different: no number equals two of them. *)
Definition distinct_keys (items : list (entry_key * value)) : Prop :=
  forall i j e v e' v' k, nth_error items i = Some (e, v) -> nth_error items j = Some (e', v') -> same_number k e -> same_number k e' -> i = j.
Definition is_int (k : skey) : Prop := ktype k = KInt /\ kden k = 1%positive.
(** is_possible may say yes too often, not too rarely *)
Definition possible_ok (neg nonneg : bool) (k : skey) : Prop := (knum k < 0 -> neg = true) /\ (0 <= knum k -> nonneg = true).
