(** Model of crosshair/simplestructs.py SimpleDict (134-218), ShellMutableMap
    (225-339) and MapBase.__eq__/__or__ (63-82, 108-117), with the mixin methods of
    collections.abc.MutableMapping.

    Keys are hashable; [eqb] is their [==] (and identical keys are equal, so the
    identity test of line 172 adds nothing). *)
From Coq Require Import ZArith List Bool.
From Verif Require Import Py.
Import ListNotations.
Open Scope Z_scope.

Section Map.
  Context {K V : Type}.
  Variable eqb : K -> K -> bool.

  (** *** SimpleDict: its [contents_] *)
  Section SD.
    Context {W : Type}.
    Definition sd := list (K * W).
    (** 166-177 __getitem__ *)
    Fixpoint sd_get (d : sd) (key : K) : res W :=
      match d with
      | [] => Err KeyError
      | (k, v) :: d => if eqb k key then Ok v else sd_get d key
      end.
    (** 179-186 __setitem__ *)
    Fixpoint sd_set (d : sd) (key : K) (value : W) : sd :=
      match d with
      | [] => [(key, value)]
      | (k, v) :: d => if eqb k key then (k, value) :: d else (k, v) :: sd_set d key value
      end.
    (** 188-195 __delitem__ *)
    Fixpoint sd_del (d : sd) (key : K) : res sd :=
      match d with
      | [] => Err KeyError
      | (k, v) :: d => if eqb k key then Ok d else map_res (cons (k, v)) (sd_del d key)
      end.
    (** 197-201 __iter__, __reversed__ ; 206 __len__ *)
    Definition sd_iter (d : sd) : list K := map (fun '(k, v) => k) d.
    Definition sd_reversed (d : sd) : list K := map (fun '(k, v) => k) (rev d).
    Definition sd_len (d : sd) : Z := Z.of_nat (length d).
    (** 213-217 popitem; list.pop takes the last item *)
    Definition sd_popitem (d : sd) : res ((K * W) * sd) :=
      match rev d with
      | [] => Err KeyError
      | kv :: r => Ok (kv, rev r)
      end.
    (** 219-220 copy: a new dict over a copy of the list *)
    Definition sd_copy (d : sd) : sd := d.
  End SD.

  (** *** ShellMutableMap; a deleted key is [None] in the mutations. The inner
      mapping is given by its items, in iteration order. *)
  Record shell := mkShell { muts : list (K * option V); inner : list (K * V); slen : Z }.

  (** 226-229 *)
  Definition sh_init (inner : list (K * V)) : shell := mkShell [] inner (sd_len inner).

  (** 237-244 *)
  Definition sh_get (s : shell) (key : K) : res V :=
    match sd_get (muts s) key with
    | Ok None => Err KeyError
    | Err _ => sd_get (inner s) key
    | Ok (Some v) => Ok v
    end.
  (** Mapping.__contains__ *)
  Definition sh_contains (s : shell) (key : K) : bool :=
    match sh_get s key with Ok _ => true | Err _ => false end.

  Definition memb (k : K) (l : list K) : bool := existsb (eqb k) l.

  (** 251-267 _reversed *)
  Definition sh_reversed (s : shell) : list K :=
    let rm := rev (muts s) in
    let deleted := map (fun '(k, v) => k) (filter (fun '(k, v) => match v with None => true | _ => false end) rm) in
    map (fun '(k, v) => k) (filter (fun '(k, v) => match v with None => false | _ => true end) rm)
    ++ filter (fun k => negb (memb k deleted)) (sd_reversed (inner s)).

  (** 269-277 __iter__ *)
  Definition sh_iter (s : shell) : list K :=
    let suppress := sd_iter (muts s) in
    filter (fun k => negb (memb k suppress)) (sd_iter (inner s))
    ++ map (fun '(k, v) => k) (filter (fun '(k, v) => match v with None => false | _ => true end) (muts s)).

  (** 294-297 __len__, __bool__ *)
  Definition sh_len (s : shell) : Z := slen s.
  Definition sh_bool (s : shell) : bool := 0 <? slen s.

  (** 299-302 __setitem__ *)
  Definition sh_set (s : shell) (key : K) (val : V) : shell :=
    mkShell (sd_set (muts s) key (Some val)) (inner s)
            (if sh_contains s key then slen s else slen s + 1).
  (** 304-312 __delitem__ *)
  Definition sh_del (s : shell) (key : K) : res shell :=
    let hit := mkShell (sd_set (muts s) key None) (inner s) (slen s - 1) in
    match sd_get (muts s) key with
    | Ok None => Err KeyError
    | Err _ => match sd_get (inner s) key with Err _ => Err KeyError | Ok _ => Ok hit end
    | Ok (Some _) => Ok hit
    end.
  (** 317-331 pop *)
  Definition sh_pop (s : shell) (key : K) (default : option V) : res (V * shell) :=
    let notfound := match default with None => Err KeyError | Some d => Ok (d, s) end in
    if 0 <? slen s then
      match sh_get s key with
      | Ok value => do s' <- sh_del s key; Ok (value, s')
      | Err _ => notfound
      end
    else notfound.
  (** 333-338 popitem *)
  Definition sh_popitem (s : shell) : res ((K * V) * shell) :=
    match sh_reversed s with
    | [] => Err KeyError
    | key :: _ => do val <- sh_get s key; do s' <- sh_del s key; Ok ((key, val), s')
    end.
  (** 340-343 copy *)
  Definition sh_copy (s : shell) : shell := mkShell (sd_copy (muts s)) (inner s) (sd_len (inner s)).

  (** MutableMapping.setdefault, update (with items), clear *)
  Definition sh_setdefault (s : shell) (key : K) (d : V) : V * shell :=
    match sh_get s key with Ok v => (v, s) | Err _ => (d, sh_set s key d) end.
  Definition sh_update (s : shell) (items : list (K * V)) : shell :=
    fold_left (fun s '(k, v) => sh_set s k v) items s.
  Fixpoint sh_clear (fuel : nat) (s : shell) : res shell :=
    match fuel with
    | O => Err OutOfFuel
    | S f => match sh_popitem s with
             | Ok (_, s') => sh_clear f s'
             | Err _ => Ok s
             end
    end.

  (** [self.items()] of a mapping: its keys in order, each looked up. *)
  Definition sh_items (s : shell) : list (K * V) :=
    flat_map (fun k => match sh_get s k with Ok v => [(k, v)] | Err _ => [] end) (sh_iter s).

  (** MapBase.__or__ 110-115; __ror__ is the same function (117): [d | m] for a
      builtin d calls m.__or__(d). *)
  Definition sh_or (s : shell) (other : list (K * V)) : shell := sh_update (sh_copy s) other.
  Definition sh_ror (s : shell) (other : list (K * V)) : shell := sh_or s other.

  Section Eq.
    Variable veqb : V -> V -> bool.
    (** 63-82 MapBase.__eq__ over the items of both sides *)
    Fixpoint inner_search (k : K) (v : V) (other : list (K * V)) : bool :=
      match other with
      | [] => false
      | (ok, ov) :: other => if negb (eqb ok k) then inner_search k v other else veqb v ov
      end.
    Fixpoint eq_loop (items other : list (K * V)) : bool :=
      match items with
      | [] => true
      | (k, v) :: items => if inner_search k v other then eq_loop items other else false
      end.
    Definition mapbase_eq (items other : list (K * V)) : bool :=
      if negb (Nat.eqb (length items) (length other)) then false else eq_loop items other.
    (** 279-292 ShellMutableMap.__eq__ with another mapping, given by its items *)
    Fixpoint shell_eq_loop (s : shell) (other : list (K * V)) : bool :=
      match other with
      | [] => true
      | (k, v) :: other =>
          match sh_get s k with
          | Err _ => false
          | Ok w => if negb (veqb w v) then false else shell_eq_loop s other
          end
      end.
    Definition sh_eq (s : shell) (other : list (K * V)) : bool :=
      match muts s with
      | [] => mapbase_eq (inner s) other
      | _ => if negb (sh_len s =? Z.of_nat (length other)) then false else shell_eq_loop s other
      end.
  End Eq.

  (** *** Histories *)
  Inductive mop :=
  | MGet (k : K) | MContains (k : K) | MLen | MBool | MSet (k : K) (v : V) | MDel (k : K)
  | MPop (k : K) (d : option V) | MSetDefault (k : K) (v : V) | MUpdate (l : list (K * V)) | MClear.
  Inductive mout := RNone | RVal (v : V) | RBool (b : bool) | RLen (n : Z) | RErr (e : exc) | RItem (k : K) (v : V)
  | RKeys (l : list K).

  Definition sh_step (s : shell) (o : mop) : mout * shell :=
    match o with
    | MGet k => (match sh_get s k with Ok v => RVal v | Err e => RErr e end, s)
    | MContains k => (RBool (sh_contains s k), s)
    | MLen => (RLen (sh_len s), s)
    | MBool => (RBool (sh_bool s), s)
    | MSet k v => (RNone, sh_set s k v)
    | MDel k => match sh_del s k with Ok s => (RNone, s) | Err e => (RErr e, s) end
    | MPop k d => match sh_pop s k d with Ok (v, s) => (RVal v, s) | Err e => (RErr e, s) end
    | MSetDefault k v => let '(v, s) := sh_setdefault s k v in (RVal v, s)
    | MUpdate l => (RNone, sh_update s l)
    | MClear => match sh_clear (S (Z.to_nat (slen s))) s with
                | Ok s => (RNone, s) | Err e => (RErr e, s) end
    end.
  Fixpoint sh_run (s : shell) (l : list mop) : list mout * shell :=
    match l with
    | [] => ([], s)
    | o :: l => let '(r, s) := sh_step s o in let '(rs, s) := sh_run s l in (r :: rs, s)
    end.

  (** SimpleDict histories: also the ordered operations. *)
  Inductive dop :=
  | DMap (o : mop) | DPopItem | DKeys | DReversed.
  Definition sdv_pop (d : sd (W := V)) (key : K) (default : option V) : res (V * sd) :=
    match sd_get d key with
    | Ok v => do d' <- sd_del d key; Ok (v, d')
    | Err _ => match default with None => Err KeyError | Some x => Ok (x, d) end
    end.
  Fixpoint sd_clear (fuel : nat) (d : sd (W := V)) : res sd :=
    match fuel with
    | O => Err OutOfFuel
    | S f => match sd_popitem d with Ok (_, d') => sd_clear f d' | Err _ => Ok d end
    end.
  Definition sd_step (d : sd (W := V)) (o : dop) : mout * sd :=
    match o with
    | DMap (MGet k) => (match sd_get d k with Ok v => RVal v | Err e => RErr e end, d)
    | DMap (MContains k) => (RBool (match sd_get d k with Ok _ => true | Err _ => false end), d)
    | DMap MLen => (RLen (sd_len d), d)
    | DMap MBool => (RBool (0 <? sd_len d), d)
    | DMap (MSet k v) => (RNone, sd_set d k v)
    | DMap (MDel k) => match sd_del d k with Ok d => (RNone, d) | Err e => (RErr e, d) end
    | DMap (MPop k x) => match sdv_pop d k x with Ok (v, d) => (RVal v, d) | Err e => (RErr e, d) end
    | DMap (MSetDefault k v) => match sd_get d k with Ok w => (RVal w, d) | Err _ => (RVal v, sd_set d k v) end
    | DMap (MUpdate l) => (RNone, fold_left (fun d '(k, v) => sd_set d k v) l d)
    | DMap MClear => match sd_clear (S (length d)) d with Ok d => (RNone, d) | Err e => (RErr e, d) end
    | DPopItem => match sd_popitem d with Ok ((k, v), d) => (RItem k v, d) | Err e => (RErr e, d) end
    | DKeys => (RKeys (sd_iter d), d)
    | DReversed => (RKeys (sd_reversed d), d)
    end.
  Fixpoint sd_run (d : sd (W := V)) (l : list dop) : list mout * sd :=
    match l with
    | [] => ([], d)
    | o :: l => let '(r, d) := sd_step d o in let '(rs, d) := sd_run d l in (r :: rs, d)
    end.
End Map.
Arguments shell : clear implicits.
Arguments mop : clear implicits.
Arguments mout : clear implicits.
Arguments dop : clear implicits.
