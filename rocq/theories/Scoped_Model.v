(** Model of the context managers that change state of the whole process for a while:
    util.py add_to_pypath 328-336, imported_alternative 371-393, DynamicScopeVar 616-655,
    and pure_importer.py prefer_pure_python_imports 20-27.

    A program is a tree of uses of them.  Strings, modules and values are numbers.  The
    import system is not modelled: whether a reload succeeds is part of the program. *)
From Coq Require Import ZArith List Bool.
Import ListNotations.

(** A value in sys.modules: a module, or None for one whose import is suppressed. *)
Inductive entry := Module (m : Z) | Suppressed.

Record state := mkState {
  path : list Z;                      (* sys.path *)
  hooks : list nat;                   (* sys.path_hooks: how often each hook is wrapped *)
  mods : Z -> option entry;           (* sys.modules *)
  var : option Z;                     (* _local.value; None also if it is not set *)
  trace : list (option Z) }.          (* results of get, oldest first *)

Inductive cmd :=
| Skip
| Raise                                       (* an exception of the code in a block *)
| Seq (a b : cmd)
| Attempt (a : cmd)                           (* try: a, except: pass *)
| AppendPath (p : Z)                          (* sys.path.append(p), by imported code *)
| Get (default : option Z)                    (* DynamicScopeVar.get *)
| WithPath (ps : list Z) (a : cmd)
| WithPure (a : cmd)
| WithAlternative (suppress : list Z) (reload1 reload2 : bool) (a : cmd)
| WithVar (v : option Z) (reentrant : bool) (a : cmd).

Definition set_path (p : list Z) (s : state) : state := mkState p (hooks s) (mods s) (var s) (trace s).
Definition set_hooks (h : list nat) (s : state) : state := mkState (path s) h (mods s) (var s) (trace s).
Definition set_mods (m : Z -> option entry) (s : state) : state := mkState (path s) (hooks s) m (var s) (trace s).
Definition set_var (v : option Z) (s : state) : state := mkState (path s) (hooks s) (mods s) v (trace s).
Definition log (o : option Z) (s : state) : state :=
  mkState (path s) (hooks s) (mods s) (var s) (trace s ++ [o]).

(** modules.update and the restoring of "saved", 383-384 and 388-392. *)
Definition suppress_all (ks : list Z) (m : Z -> option entry) : Z -> option entry :=
  fun k => if existsb (Z.eqb k) ks then Some Suppressed else m k.
Definition restore_all (ks : list Z) (saved m : Z -> option entry) : Z -> option entry :=
  fun k => if existsb (Z.eqb k) ks then saved k else m k.

Definition same (a b : option Z) : bool :=
  match a, b with
  | Some x, Some y => Z.eqb x y
  | None, None => true
  | _, _ => false
  end.

(** The state afterwards, and whether it ended without an exception. *)
Fixpoint run (c : cmd) (s : state) : state * bool :=
  match c with
  | Skip => (s, true)
  | Raise => (s, false)
  | Seq a b => let (s1, ok) := run a s in if ok then run b s1 else (s1, false)
  | Attempt a => (fst (run a s), true)
  | AppendPath p => (set_path (path s ++ [p]) s, true)
  | Get default =>                                              (* 645-651 *)
      match var s with
      | Some v => (log (Some v) s, true)
      | None =>
          match default with
          | Some d => (log (Some d) s, true)
          | None => (s, false)
          end
      end
  | WithPath ps a =>                                            (* 329-336 *)
      let old := path s in
      let (s1, ok) := run a (set_path (rev ps ++ path s) s) in
      (set_path old s1, ok)
  | WithPure a =>                                               (* 21-27: no "finally" *)
      let (s1, ok) := run a (set_hooks (map S (hooks s)) s) in
      if ok then
        if forallb (fun n => negb (Nat.eqb n 0)) (hooks s1)
        then (set_hooks (map pred (hooks s1)) s1, true)
        else (s1, false)
      else (s1, false)
  | WithAlternative ks r1 r2 a =>                               (* 372-393 *)
      let saved := mods s in
      let s0 := set_mods (suppress_all ks (mods s)) s in
      if r1 then                                                (* 385, before "try" *)
        let (s1, ok) := run a s0 in
        let s2 := set_mods (restore_all ks saved (mods s1)) s1 in
        (s2, ok && r2)
      else (s0, false)
  | WithVar v reentrant a =>                                    (* 633-643 *)
      let old := var s in
      if negb reentrant && negb (same old None) then (s, false)
      else
        let (s1, ok) := run a (set_var v s) in
        if same (var s1) v then (set_var old s1, ok) else (s1, false)
  end.
