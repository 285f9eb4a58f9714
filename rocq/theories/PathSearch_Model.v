(** Model of crosshair/path_search.py, on_path_complete: the search for the path and input
    with the least score.  The solver enters through [sat], which says whether the path
    admits a score in a half-open interval; smt_fork with probability 1.0 (0.0) takes
    the true (false) side whenever it is possible (statespace.py 514-542, 655-676; pathing_oracle.py 151-158). *)
From Coq Require Import ZArith List Bool.
From Verif Require Import Py.
Import ListNotations.
Open Scope Z_scope.

(** The constraints on the score the path has collected: at least, and less than *)
Record cons := mkCons { lo : option Z; hi : option Z }.
Definition at_least (c : cons) (t : Z) : cons :=
  mkCons (Some (match lo c with None => t | Some l => Z.max l t end)) (hi c).
Definition below (c : cons) (t : Z) : cons :=
  mkCons (lo c) (Some (match hi c with None => t | Some h => Z.min h t end)).

Section Path.
Variable sat : cons -> bool.
(** space.smt_fork(smt_score < t, probability_true=1.0), 135 *)
Definition prefer_below (c : cons) (t : Z) : bool * cons :=
  if sat (below c t) then (true, below c t) else (false, at_least c t).
(** space.smt_fork(smt_score < t, probability_true=0.0), 122 *)
Definition prefer_at_least (c : cons) (t : Z) : bool * cons :=
  if sat (at_least c t) then (false, at_least c t) else (true, below c t).
(** 130-148: the loop *)
Fixpoint bisect (fuel : nat) (c : cons) (known_min : Z) (known_max : option Z) (test : Z) : res (Z * cons) :=
  match fuel with
  | O => Err OutOfFuel
  | S fuel =>
      let (b, c) := prefer_below c test in
      let next known_min known_max :=
        if known_min =? known_max then Ok (known_min, c)
        else bisect fuel c known_min (Some known_max) ((known_min + known_max + 1) / 2) in
      if b then next known_min (test - 1)
      else
        match known_max with
        | None => bisect fuel c test None (test * 100)
        | Some known_max => next test known_max
        end
  end.
(** 122-151: one path with an integer score.  None: the path is passed over; otherwise
    the new best score and the constraints under which the input is written out. *)
Definition one_path (fuel : nat) (best : option Z) : res (option (Z * cons)) :=
  let (neg, c) := prefer_at_least (mkCons None None) 0 in
  if neg then Ok None
  else
    let run c := map_res Some (bisect fuel c 0 best (match best with None => 1000 | Some b => b / 2 end)) in
    match best with
    | None => run c
    | Some b =>
        (* 125-127: smt_fork(smt_score >= best_score, probability_true=0.0) *)
        let (lt, c) := prefer_below c b in
        if lt then run c else Ok None
    end.
End Path.

(** The paths in the order explored: best score and the scores announced by on_example
    (150), most recent first; a score of 0 ends the search (151). *)
Fixpoint search (fuel : nat) (paths : list (cons -> bool)) (best : option Z) (shown : list Z) : res (option Z * list Z) :=
  match paths with
  | [] => Ok (best, shown)
  | sat :: paths =>
      do r <- one_path sat fuel best;
      match r with
      | None => search fuel paths best shown
      | Some (b, _) => if b =? 0 then Ok (Some b, b :: shown) else search fuel paths (Some b) (b :: shown)
      end
  end.
