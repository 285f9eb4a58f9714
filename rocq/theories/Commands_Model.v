(** Model of the commands search, diffbehavior and cover: main.py checked_fn_load 640-657,
    checked_load 660-672, diffbehavior 675-711, cover 714-787, search 790-828.

    Texts are numbers.  Loading targets (fnutil.py 353-373) and the analyses themselves
    (path_search, diff_behavior, path_cover) are parameters: what they give. *)
From Coq Require Import ZArith List Bool.
From Verif Require Import Cli_Model.
Import ListNotations.

(** What a target is: a function, named by a number, with a signature or without; a class
    with the functions in its own dictionary; a module with its functions and classes. *)
Record func := mkFunc { f_name : Z; f_callable : bool }.
Inductive member := MFunc (f : func) | MClass (methods : list func).
Inductive entity := EMember (m : member) | EModule (members : list member).

(** load_files_or_qualnames, run to its end. *)
Inductive loading := Loads (es : list entity) | Fails (e : load_err).

(** How a process ends: with a status of its own, or by an exception nothing caught. *)
Inductive ending := Status (n : Z) | Uncaught.
Definition exit_status (e : ending) : Z := match e with Status n => n | Uncaught => 1 end.

(** 640-657, checked_fn_load: a function, None, or an exception. *)
Inductive fn_load := FnLoaded (f : func) | FnNone | FnRaises.
Definition checked_fn_load (l : loading) : fn_load :=
  match l with
  | Fails ErrorDuringImport => FnNone
  | Fails _ => FnRaises
  | Loads [] => FnRaises                                     (* objs[0] *)
  | Loads (EMember (MFunc f) :: _) => if f_callable f then FnLoaded f else FnNone
  | Loads _ => FnNone
  end.

(** 790-828, search.  [found] are the examples path_search reports, in order. *)
Definition last_of (l : list Z) : option Z := fold_left (fun _ e => Some e) l None.
Definition search (target : loading) (formatter : option loading) (output_all : bool)
    (found : list Z) : ending * list Z :=
  match checked_fn_load target with
  | FnRaises => (Uncaught, [])
  | FnNone => (Status 2, [])
  | FnLoaded _ =>
      let go :=
        match last_of found with
        | None => (Status 1, [])
        | Some e => (Status 0, if output_all then found else [e])
        end in
      match formatter with
      | None => go
      | Some l =>
          match checked_fn_load l with
          | FnRaises => (Uncaught, [])
          | FnNone => (Status 2, [])
          | FnLoaded _ => go
          end
      end
  end.

(** 675-711, diffbehavior.  diff_behavior gives a text saying why it cannot compare, or
    the differences. *)
Inductive diffs := CannotCompare | Diffs (l : list Z).
Inductive diff_line := NoDifferences | AllPathsExhausted | ConsiderMore | Given (d : Z).
Definition diffbehavior (l1 l2 : loading) (result : diffs) (exhaustion : Z)
  : ending * list diff_line :=
  match checked_fn_load l1 with
  | FnRaises => (Uncaught, [])
  | r1 =>
      match r1, checked_fn_load l2 with
      | _, FnRaises => (Uncaught, [])
      | FnLoaded _, FnLoaded _ =>
          match result with
          | CannotCompare => (Status 2, [])
          | Diffs [] =>
              (Status 0, [NoDifferences;
                          if (0 <? exhaustion)%Z then AllPathsExhausted else ConsiderMore])
          | Diffs ds => (Status 1, map Given ds)
          end
      | _, _ => (Status 2, [])
      end
  end.

(** 717-739: the functions to cover.  The deque is popped from the right. *)
Fixpoint pop {A} (l : list A) : option (list A * A) :=
  match l with
  | [] => None
  | [x] => Some ([], x)
  | x :: r => match pop r with Some (i, y) => Some (x :: i, y) | None => None end
  end.
Fixpoint collect (fuel : nat) (todo : list entity) (fns : list func) : option (list func) :=
  match fuel with
  | O => None
  | S k =>
      match pop todo with
      | None => Some fns
      | Some (rest, EModule ms) => collect k (rest ++ map EMember ms) fns
      | Some (rest, EMember (MFunc f)) => collect k rest (fns ++ [f])
      | Some (rest, EMember (MClass fs)) => collect k rest (fns ++ fs)
      end
  end.
(** Rounds of the loop: one for each entity and each member of a module. *)
Definition rounds (todo : list entity) : nat :=
  list_sum (map (fun e => match e with EModule ms => S (length ms) | EMember _ => 1 end) todo).

(** 744-787: the loop over the functions.  path_cover gives the examples of a function, or
    raises NotDeterministic.  The formats other than pytest print as they go; pytest prints
    at the end. *)
Inductive covered := Examples (l : list Z) | NonDeterministic.
Fixpoint cover_loop (path_cover : func -> covered) (pytest : bool) (fns : list func)
    (out lines : list Z) : ending * list Z :=
  match fns with
  | [] => (Status 0, if pytest then out ++ lines else out)
  | f :: r =>
      if f_callable f then
        match path_cover f with
        | NonDeterministic => (Status 2, out)
        | Examples l =>
            if pytest then cover_loop path_cover pytest r out (lines ++ l)
            else cover_loop path_cover pytest r (out ++ l) lines
        end
      else cover_loop path_cover pytest r out lines
  end.

(** 714-787, cover *)
Definition cover (targets : loading) (path_cover : func -> covered) (pytest : bool)
  : ending * list Z :=
  match targets with
  | Fails FileNotFoundError | Fails ErrorDuringImport => (Status 2, [])
  | Fails _ => (Uncaught, [])
  | Loads es =>
      match collect (S (rounds es)) es [] with
      | None => (Uncaught, [])
      | Some [] => (Status 2, [])
      | Some fns => cover_loop path_cover pytest fns [] []
      end
  end.
