(** Model of crosshair/pathing_oracle.py: the heuristics that decide which way a path
    goes at a branch where both ways are open, and of the part of
    crosshair/statespace.py 526-542, 656-673 that uses their answer.

    Simplifications: floating point probabilities are rationals; the only values of
    "random() ** 2.5" used are its place in [0, 1); Counters of conditions are lists of
    their keys (the counts are never read); conditions are numbered up to the equality
    of solver expressions ("term"), and the Python object holding one has an address,
    the value of id(). *)
From Coq Require Import ZArith QArith Qround List Bool.
From Verif Require Import Py.
Import ListNotations.
Open Scope Z_scope.
Open Scope list_scope.

(** dict.get and item assignment, which keep the place of a known key. *)
Fixpoint get {A} (k : Z) (l : list (Z * A)) : option A :=
  match l with
  | [] => None
  | (k', v) :: r => if k =? k' then Some v else get k r
  end.
Fixpoint put {A} (k : Z) (v : A) (l : list (Z * A)) : list (Z * A) :=
  match l with
  | [] => [(k, v)]
  | (k', v') :: r => if k =? k' then (k, v) :: r else (k', v') :: put k v r
  end.
Definition mem (k : Z) (l : list Z) : bool := existsb (Z.eqb k) l.

(** An object holding a condition: its address and the condition. *)
Definition object := (Z * Z)%type.

(** What follows a branch on a path: path[step + 1] (122-140). *)
Inductive next := NDetached | NPos | NNeg | NNeither.

(** A node of a finished path.  [SOther] is one that is not a WorstResultNode.  An
    [SNode] has the code location ("stacktail"), whether it is a ModelValueNode, its
    normalized_expr (sign and expression, statespace.py 624-628) and what follows. *)
Inductive step :=
| SOther
| SNode (loc : Z) (mv : bool) (pos : bool) (o : object) (nxt : next).

(** CoveragePathingOracle.__init__, 47-56. *)
Record cov := mkCov {
  visits : list (Z * nat);
  iters : nat;
  summ : list (Z * list Z);
  probs : list (Z * Q);
  expr_id : list (Z * Z);
  id_id : list (Z * Z) }.
Definition cov0 : cov := mkCov [] 0 [] [] [] [].

(** internalize, 101-114 ("if unified_id" also rejects 0). *)
Definition truthy (u : option Z) : option Z :=
  match u with Some v => if v =? 0 then None else Some v | None => None end.
Definition internalize (o : object) (s : cov) : Z * cov :=
  let (myid, e) := o in
  match truthy (get myid (id_id s)) with
  | Some u => (u, s)
  | None =>
      match truthy (get e (expr_id s)) with
      | Some u =>
          (u, mkCov (visits s) (iters s) (summ s) (probs s) (expr_id s)
                (put myid u (id_id s)))
      | None =>
          (myid, mkCov (visits s) (iters s) (summ s) (probs s)
                   (put e myid (expr_id s)) (put myid myid (id_id s)))
      end
  end.

(** 61, _delta_probabilities: a missing key is a KeyError. *)
Definition delta_probability (d : Z) : res Q :=
  if d =? -1 then Ok (1 # 10) else if d =? 0 then Ok (1 # 4)
  else if d =? 1 then Ok (9 # 10) else Err KeyError.

(** 82-89: the tweaks for a target, from the conditions that led to it. *)
Definition tweak (t : list (Z * Z)) (e : Z) : list (Z * Z) :=
  let old k := match get k t with Some v => v | None => 0 end in
  if 0 <=? e then put e (old e + 1) t else put (- e) (old (- e) - 1) t.
Definition tweaks (exprs : list Z) : list (Z * Z) := fold_left tweak exprs [].
Fixpoint probabilities (t : list (Z * Z)) : res (list (Z * Q)) :=
  match t with
  | [] => Ok []
  | (e, d) :: r =>
      do p <- delta_probability d;
      do ps <- probabilities r;
      Ok ((e, p) :: ps)
  end.

(** 79-80: a stable sort by the number of visits. *)
Definition visits_of (v : list (Z * nat)) (l : Z) : nat :=
  match get l v with Some n => n | None => O end.
Fixpoint insert (v : list (Z * nat)) (x : Z * list Z) (l : list (Z * list Z)) :=
  match l with
  | [] => [x]
  | y :: r =>
      if (visits_of v (fst x) <=? visits_of v (fst y))%nat then x :: y :: r
      else y :: insert v x r
  end.
Fixpoint sort_options (v : list (Z * nat)) (l : list (Z * list Z)) :=
  match l with [] => [] | x :: r => insert v x (sort_options v r) end.

(** 81: int(random() ** 2.5 * num_positions). *)
Definition chosen_index (r : Q) (n : nat) : nat :=
  Z.to_nat (Qfloor (r * inject_Z (Z.of_nat n))).

(** pre_path_hook, 63-99.  [r1] is the first random number, [r2] the second one to the
    power of 2.5. *)
Definition cov_pre (r1 r2 : Q) (s : cov) : res cov :=
  let n := Z.of_nat (iters s) in
  let recent := negb (Qle_bool r1 (inject_Z n / inject_Z (n + 3))) in
  match recent, summ s with
  | true, _ | _, [] =>
      Ok (mkCov (visits s) (iters s) (summ s) [] (expr_id s) (id_id s))
  | false, _ =>
      match nth_error (sort_options (visits s) (summ s))
              (chosen_index r2 (length (summ s))) with
      | None => Err IndexError
      | Some (_, exprs) =>
          do ps <- probabilities (tweaks exprs);
          Ok (mkCov (visits s) (iters s) (summ s) ps (expr_id s) (id_id s))
      end
  end.

(** 124: summarized_positions[key] += Counter(leading_conditions). *)
Definition add_key (l : list Z) (k : Z) : list Z := if mem k l then l else l ++ [k].
Definition summarize (loc : Z) (conds : list Z) (s : cov) : cov :=
  let old := match get loc (summ s) with Some l => l | None => [] end in
  mkCov (visits s) (iters s) (put loc (fold_left add_key conds old) (summ s)) (probs s)
    (expr_id s) (id_id s).

(** 116-144: the loop over the path.  [Err RuntimeError] stands for CrossHairInternal. *)
Fixpoint post_loop (p : list step) (locs conds : list Z) (s : cov)
  : res (list Z * cov) :=
  match p with
  | [] => Ok (locs, s)
  | SOther :: r => post_loop r locs conds s
  | SNode loc mv pos o nxt :: r =>
      let s1 := if negb (mem loc locs) && negb mv then summarize loc conds s else s in
      let locs1 := locs ++ [loc] in
      match nxt with
      | NDetached => Ok (locs1, s1)
      | _ =>
          let (u, s2) := internalize o s1 in
          let signature := if pos then u else - u in
          match nxt with
          | NPos => post_loop r locs1 (conds ++ [signature]) s2
          | NNeg => post_loop r locs1 (conds ++ [- signature]) s2
          | _ => Err RuntimeError
          end
      end
  end.

(** 145-151: counting the visits. *)
Definition count_visit (v : list (Z * nat)) (l : Z) : list (Z * nat) :=
  put l (S (visits_of v l)) v.
Definition cov_post (p : list step) (s : cov) : res cov :=
  do ls <- post_loop p [] [] s;
  let (locs, s1) := ls : list Z * cov in
  let v := fold_left count_visit locs (visits s1) in
  Ok (mkCov v (if (length (visits s1) <? length v)%nat then O else S (iters s1))
        (summ s1) (probs s1) (expr_id s1) (id_id s1)).

Section Oracles.
(** Conditions of the solver, their negation, and is_possible (statespace.py 882-889)
    of a conjunction together with the constraints of the current path. *)
Variable cond : Type.
Variable neg : cond -> cond.

(** A branch where both ways are open: WorstResultNode. *)
Record branch := mkBranch {
  b_loc : Z; b_pos : bool; b_obj : object; b_expr : cond }.

(** What an oracle can ask of the search: _open_coverage[stacktail] (counts of the
    positive and negative ways taken) and is_possible. *)
Record world := mkWorld {
  counts : Z -> nat * nat;
  possible : list cond -> bool }.

Definition fixed (p : option Q) : bool :=
  match p with Some q => Qeq_bool q 0 || Qeq_bool q 1 | None => false end.

(** CoveragePathingOracle.decide, 153-176. *)
Definition cov_decide (b : branch) (p : option Q) (s : cov) : Q * cov :=
  match p, fixed p with
  | Some q, true => (q, s)
  | _, _ =>
      let (u, s1) := internalize (b_obj b) s in
      match get u (probs s1) with
      | None => (match p with None => 1 # 4 | Some q => q end, s1)
      | Some t => ((if b_pos b then t else 1 - t)%Q, s1)
      end
  end.

(** BreadthFirstPathingOracle.decide, 179-200. *)
Definition bfs_decide (w : world) (b : branch) (p : option Q) : Q :=
  let (pos_ct, neg_ct) := counts w (b_loc b) in
  let taken n := negb (n =? 0)%nat in
  if xorb (taken pos_ct) (taken neg_ct) && negb (fixed p)
  then (if taken neg_ct then 1 else 0)%Q
  else
    let q := match p with None => 1 # 4 | Some q => q end in
    if fixed (Some q) then q
    else if (neg_ct * 2 + 1 <? pos_ct)%nat then (q / 2)%Q
    else if (pos_ct * 2 + 1 <? neg_ct)%nat then ((1 + q) / 2)%Q
    else q.

(** PreferNegativeOracle.decide, 203-220. *)
Definition negative_decide (p : option Q) : Q :=
  match p with Some q => q | None => 1 # 4 end.

(** The oracles, with their states. *)
Inductive oracle :=
| OCoverage (s : cov)
| OBreadth
| ONegative
| OConstrained (inner : oracle) (exprs : list cond)
| ORotating (os : list oracle) (index : Z).

(** pre_path_hook of each (223-240, 262-268).  Each coverage oracle gets the same
    random numbers here; nothing depends on it. *)
Fixpoint pre_path (r1 r2 : Q) (o : oracle) : res oracle :=
  match o with
  | OCoverage s => map_res OCoverage (cov_pre r1 r2 s)
  | OBreadth => Ok OBreadth
  | ONegative => Ok ONegative
  | OConstrained inner _ =>
      do i <- pre_path r1 r2 inner; Ok (OConstrained i [])
  | ORotating os index =>
      match os with
      | [] => Err ZeroDivisionError
      | _ =>
          do os' <- (fix go (l : list oracle) : res (list oracle) :=
                       match l with
                       | [] => Ok []
                       | x :: r => do x' <- pre_path r1 r2 x; do r' <- go r; Ok (x' :: r')
                       end) os;
          Ok (ORotating os' ((index + 1) mod Z.of_nat (length os)))
      end
  end.

(** post_path_hook of each. *)
Fixpoint post_path (p : list step) (o : oracle) : res oracle :=
  match o with
  | OCoverage s => map_res OCoverage (cov_post p s)
  | OBreadth => Ok OBreadth
  | ONegative => Ok ONegative
  | OConstrained inner es => do i <- post_path p inner; Ok (OConstrained i es)
  | ORotating os index =>
      do os' <- (fix go (l : list oracle) : res (list oracle) :=
                   match l with
                   | [] => Ok []
                   | x :: r => do x' <- post_path p x; do r' <- go r; Ok (x' :: r')
                   end) os;
      Ok (ORotating os' index)
  end.

(** ConstrainedOracle.prefer, 232-233. *)
Definition prefer (e : cond) (o : oracle) : oracle :=
  match o with OConstrained i es => OConstrained i (es ++ [e]) | _ => o end.

(** Indexing of a Python list: a negative index counts from the end. *)
Definition place (n : nat) (i : Z) : option nat :=
  let j := if i <? 0 then i + Z.of_nat n else i in
  if (0 <=? j) && (j <? Z.of_nat n) then Some (Z.to_nat j) else None.

(** decide of each (242-255, 274-277). *)
Fixpoint decide (w : world) (b : branch) (p : option Q) (o : oracle) : res (Q * oracle) :=
  match o with
  | OCoverage s => let (q, s') := cov_decide b p s in Ok (q, OCoverage s')
  | OBreadth => Ok (bfs_decide w b p, OBreadth)
  | ONegative => Ok (negative_decide p, ONegative)
  | OConstrained inner es =>
      do r <- decide w b p inner;
      let (q, i) := r : Q * oracle in
      Ok (match es with
          | [] => q
          | _ =>
              if negb (possible w (b_expr b :: es)) then 0%Q
              else if negb (possible w (neg (b_expr b) :: es)) then 1%Q
              else q
          end, OConstrained i es)
  | ORotating os index =>
      match place (length os) index with
      | None => Err IndexError
      | Some k =>
          do r <- (fix at_ (l : list oracle) (k : nat) : res (Q * list oracle) :=
                     match l, k with
                     | [], _ => Err IndexError
                     | x :: r, O =>
                         do y <- decide w b p x;
                         let (q, x') := y : Q * oracle in Ok (q, x' :: r)
                     | x :: r, S k' =>
                         do y <- at_ r k';
                         let (q, r') := y : Q * list oracle in Ok (q, x :: r')
                     end) os k;
          let (q, os') := r : Q * list oracle in Ok (q, ORotating os' index)
      end
  end.
End Oracles.

(** RandomizedBinaryPathNode.choose, statespace.py 526-542, when both ways are open:
    [u] is the random number, between 0.000001 and 0.999999. *)
Definition takes_positive (u q : Q) : bool := negb (Qle_bool q u).
