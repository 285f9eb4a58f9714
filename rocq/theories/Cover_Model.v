(** Model of the choice of examples to show: crosshair/path_cover.py path_cover
    (132-150) and crosshair/diff_behavior.py diff_behavior, diff_scorer (105-177),
    and of the pytest output of path_cover.py 182-209 and main.py cover 743-784.

    Sets of opcode offsets are lists in which an offset may be repeated; the length
    of a set is that of the list without repetitions. *)
From Coq Require Import List Bool ZArith.
Import ListNotations.
Open Scope Z_scope.

(** max(l, key=k): the first of the greatest elements, with the elements before and
    after it.  [less x y]: k x < k y. *)
Section Max.
  Context {X : Type}.
  Variable less : X -> X -> bool.
  Fixpoint best (l : list X) : option (list X * X * list X) :=
    match l with
    | [] => None
    | x :: r => match best r with
                | None => Some ([], x, [])
                | Some (b, y, a) => if less x y then Some (x :: b, y, a) else Some ([], x, r)
                end
    end.
End Max.

Definition minus (a b : list Z) : list Z := filter (fun x => negb (existsb (Z.eqb x) b)) a.
Definition inter (a b : list Z) : list Z := filter (fun x => existsb (Z.eqb x) b) a.
Definition len (a : list Z) : Z := Z.of_nat (length (nodup Z.eq_dec a)).

(** comparing pairs of numbers *)
Definition less2 (a b : Z * Z) : bool :=
  (fst a <? fst b) || (fst a =? fst b) && (snd a <? snd b).

(** path_cover.py 36-38 *)
Inductive coverage_type := OPCODE | PATH.

Section Cover.
  Context {X : Type}.
  Variable cov : X -> list Z.         (* p.coverage.offsets_covered *)
  Variable text : X -> Z.             (* len(p.formatted_args) *)

  (** path_cover.py 137-140 *)
  Definition key (found : list Z) (p : X) : Z * Z := (len (minus (cov p) found), - text p).

  (** path_cover.py 132-150; paths are removed by identity (149).  [fuel]: the number of
      paths. *)
  Fixpoint choose (ty : coverage_type) (fuel : nat) (paths : list X) (found : list Z) : list X :=
    match fuel with
    | O => []
    | S fuel =>
        match best (fun a b => less2 (key found a) (key found b)) paths with
        | None => []
        | Some (before, p, after) =>
            if match ty with OPCODE => len (minus (cov p) found) =? 0 | PATH => false end then []
            else p :: choose ty fuel (before ++ after) (found ++ cov p)
        end
    end.
  Definition selected (ty : coverage_type) (paths : list X) : list X :=
    choose ty (length paths) paths [].
End Cover.

(** *** diff_behavior.py *)
Section Diffs.
  Context {X : Type}.
  Variable cov1 cov2 : X -> list Z.   (* offsets covered in the two functions *)
  Variable text : X -> Z.             (* len(str(diff)) *)

  (** diff_scorer 117-125.  The division by the number of opcodes, which is the same
      for all differences, is left out. *)
  Definition score (ops1 ops2 : list Z) (d : X) : Z * Z :=
    (len (inter (cov1 d) ops1) + len (inter (cov2 d) ops2), text d).

  (** 160-177.  all_diffs.remove(selection) removes the first equal difference. *)
  Fixpoint pick_diffs (fuel : nat) (diffs : list X) (ops1 ops2 : list Z) : list X :=
    match fuel with
    | O => []
    | S fuel =>
        match best (fun a b => less2 (score ops1 ops2 a) (score ops1 ops2 b)) diffs with
        | None => []
        | Some (before, d, after) =>
            if fst (score ops1 ops2 d) =? 0 then []
            else d :: pick_diffs fuel (before ++ after) (minus ops1 (cov1 d)) (minus ops2 (cov2 d))
        end
    end.
  Definition picked (all1 all2 : list Z) (diffs : list X) : list X :=
    pick_diffs (length diffs) diffs all1 all2.
End Diffs.
