(* Model of the continuously running analysis: crosshair/watcher.py and the part of
   crosshair/fnutil.py that lists files.

   Three things are modelled.
   - Which files are watched, and how a change among them is noticed.
   - The pool of workers, as a transition system.  The scheduler is an arbitrary list of
     events: steps of the main thread, steps of the worker threads and movements of the
     clock, in any order.
   - One pass of the main loop over that pool, one atomic action at a time.

   Simplifications.  Modification times are integers (only equality and order are used).
   Worker processes are seen through the thread that owns them: it is starting (no process
   yet), running, has posted its result, or is dead.  What a worker computes is not
   modelled here; a result is identified with the work item it belongs to.  Killing a
   worker means waiting until its thread is dead. *)
From Coq Require Import ZArith List Bool Arith.
Import ListNotations.
Local Open Scope Z_scope.

(* ------------------------------------------------------------------ *)
(** * Listing files: fnutil.py 304-345 *)

(** A file name is a list of code points; a path is a list of names. *)
Definition name := list Z.
Definition path := list name.

Inductive node :=
| File (mtime : Z)
| Dir (entries : list (name * node)).

Fixpoint zlist_eqb (a b : list Z) : bool :=
  match a, b with
  | [], [] => true
  | x :: a', y :: b' => (x =? y) && zlist_eqb a' b'
  | _, _ => false
  end.

Fixpoint path_eqb (a b : path) : bool :=
  match a, b with
  | [], [] => true
  | x :: a', y :: b' => zlist_eqb x y && path_eqb a' b'
  | _, _ => false
  end.

Fixpoint find_entry (n : name) (l : list (name * node)) : option node :=
  match l with
  | [] => None
  | (m, x) :: l' => if zlist_eqb n m then Some x else find_entry n l'
  end.

(** What the file system holds at a path. *)
Fixpoint node_at (root : node) (p : path) : option node :=
  match p with
  | [] => Some root
  | n :: p' =>
      match root with
      | File _ => None
      | Dir l => match find_entry n l with
                 | Some x => node_at x p'
                 | None => None
                 end
      end
  end.

(** ".py" and "setup.py" *)
Definition dot_py : name := [46; 112; 121].
Definition setup_py : name := [115; 101; 116; 117; 112; 46; 112; 121].

Definition ends_with (suffix n : name) : bool :=
  zlist_eqb (skipn (length n - length suffix) n) suffix
  && (length suffix <=? length n)%nat.

Section Names.
  (** [str.isalpha] and [str.isidentifier] of one-character strings *)
  Variable isalpha isidentifier : Z -> bool.

  (** fnutil.py 304-332, analyzable_filename.  ([filename[0]] exists because the name ends
      with ".py".) *)
  Definition analyzable_filename (n : name) : bool :=
    if negb (ends_with dot_py n) then false
    else
      let lead_char := hd 0 n in
      if negb (isalpha lead_char) && negb (isidentifier lead_char) then false
      else if zlist_eqb n setup_py then false
      else true.

  Definition is_file (x : node) : bool :=
    match x with File _ => true | Dir _ => false end.

  (** fnutil.py 342-345: [os.walk] visits a directory top-down: first its files, then each
      of its subdirectories. *)
  Fixpoint walk_dir (here : path) (x : node) : list path :=
    match x with
    | File _ => []
    | Dir l =>
        map (fun e => here ++ [fst e])
            (filter (fun e => is_file (snd e) && analyzable_filename (fst e)) l)
        ++ (fix go (l : list (name * node)) : list path :=
              match l with
              | [] => []
              | (n, y) :: l' => walk_dir (here ++ [n]) y ++ go l'
              end) l
    end.

  (** fnutil.py 335-347, walk_paths with ignore_missing=True *)
  Fixpoint walk_paths (root : node) (paths : list path) : list path :=
    match paths with
    | [] => []
    | p :: rest =>
        match node_at root p with
        | None => walk_paths root rest
        | Some (Dir l) => walk_dir p (Dir l) ++ walk_paths root rest
        | Some (File _) => p :: walk_paths root rest
        end
    end.
End Names.

(** watcher.py 49-53, mtime: [None] when the file has vanished *)
Definition mtime (root : node) (p : path) : option Z :=
  match node_at root p with
  | Some (File m) => Some m
  | _ => None
  end.

(* ------------------------------------------------------------------ *)
(** * Noticing changes: watcher.py 288-307 *)

(** [_modtimes], a dictionary in insertion order *)
Definition modtimes := list (path * Z).

Fixpoint md_get (d : modtimes) (p : path) : option Z :=
  match d with
  | [] => None
  | (q, m) :: d' => if path_eqb p q then Some m else md_get d' p
  end.

(** [del d[p]], and the effect of [d.pop(p, None)] *)
Definition md_del (d : modtimes) (p : path) : modtimes :=
  filter (fun e => negb (path_eqb p (fst e))) d.

(** [d[p] = m] keeps the position of a key that is already present. *)
Fixpoint md_set (d : modtimes) (p : path) (m : Z) : modtimes :=
  match d with
  | [] => [(p, m)]
  | (q, k) :: d' => if path_eqb p q then (q, m) :: d' else (q, k) :: md_set d' p m
  end.

(** watcher.py 291-300.  [listing] pairs each file that [walk_paths] yields with the
    modification time read for it a moment later. *)
Fixpoint check_files (listing : list (path * option Z)) (unchecked d : modtimes)
    (changed : bool) : modtimes * modtimes * bool :=
  match listing with
  | [] => (unchecked, d, changed)
  | (curfile, cur_mtime) :: rest =>
      match cur_mtime with
      | None => check_files rest unchecked d changed
      | Some m =>
          let known := md_get unchecked curfile in
          let unchecked' := md_del unchecked curfile in
          if match known with Some k => m =? k | None => false end
          then check_files rest unchecked' d changed
          else check_files rest unchecked' (md_set d curfile m) true
      end
  end.

(** watcher.py 288-307, check_changed: the new dictionary and the answer *)
Definition check_changed (d : modtimes) (listing : list (path * option Z)) : modtimes * bool :=
  let '(unchecked, d', changed) := check_files listing d d false in
  match unchecked with
  | [] => (d', changed)
  | _ => (fold_left (fun acc e => md_del acc (fst e)) unchecked d', true)
  end.

(** The same on a file system that does not move while it is being looked at *)
Definition check_changed_fs (isalpha isidentifier : Z -> bool) (paths : list path)
    (root : node) (d : modtimes) : modtimes * bool :=
  check_changed d (map (fun p => (p, mtime root p)) (walk_paths isalpha isidentifier root paths)).

(* ------------------------------------------------------------------ *)
(** * The order of a pass: watcher.py 243 *)

(** [sorted(self._modtimes.items(), key=lambda pair: -pair[1])], a stable sort *)
Fixpoint insert_by_age (e : path * Z) (l : modtimes) : modtimes :=
  match l with
  | [] => [e]
  | f :: l' => if (- snd e) <=? (- snd f) then e :: l else f :: insert_by_age e l'
  end.

Fixpoint sort_by_age (l : modtimes) : modtimes :=
  match l with
  | [] => []
  | e :: l' => insert_by_age e (sort_by_age l')
  end.

(* ------------------------------------------------------------------ *)
(** * The pool: watcher.py 100-213 *)

Section Pool.
  (** a work item, and the deadline it carries *)
  Variable item : Type.
  Variable deadline : item -> Z.

  Inductive status := Starting | Running | Posted | Dead.

  (** Thread.is_alive() *)
  Definition alive (x : status) : bool :=
    match x with Dead => false | _ => true end.

  (** [worker.proc is not None], watcher.py 108, 119 *)
  Definition has_proc (x : status) : bool :=
    match x with Starting => false | _ => true end.

  (** Where the main thread is in [run_iteration] (watcher.py 252-273). *)
  Inductive after := GoLoop | GoFirst | GoAbort.
  Inductive pcs :=
  | PKill (todo : list nat) (curtime : option Z) (next : after)  (** 171-179 *)
  | PJoin (who : nat) (todo : list nat) (curtime : option Z) (next : after) (** 176-179 *)
  | PKeep (todo kept : list nat) (next : after)                  (** 180 *)
  | PSpawn (next : after)                                        (** 157-168 *)
  | PFirst                                                       (** 255 *)
  | PLoop                                                        (** 261 *)
  | PGet                                                         (** 262 *)
  | PMore                                                        (** 266 *)
  | PPeriodic                                                    (** 268 *)
  | PDone                                                        (** 272 *)
  | PIdle                                                        (** 256-260 *)
  | PAborted.                                                    (** 269-270 *)

  Record state := St {
    pc : pcs;
    clock : Z;
    work : list item;                    (** Pool._work *)
    threads : list (item * status);      (** every thread the pool ever started *)
    tracked : list nat;                  (** Pool._workers, as positions in [threads] *)
    queue : list item;                   (** Pool._results *)
    posted : list item;                  (** every result ever put in the queue *)
    yielded : list (option item)         (** what the pass has handed to its caller *)
  }.

  Inductive event :=
  | Main (abort : bool)   (** the main thread takes one step; [abort]: a stop request or a
                              change of some file is there to be noticed *)
  | Clock (t : Z)         (** the wall clock shows [t] *)
  | Up (i : nat)          (** Popen has returned in thread [i] *)
  | Post (i : nat)        (** thread [i] puts its result in the queue *)
  | Die (i : nat).        (** thread [i] ends *)

  Definition status_of (l : list (item * status)) (i : nat) : status :=
    match nth_error l i with
    | Some (_, x) => x
    | None => Dead
    end.

  Fixpoint set_status (l : list (item * status)) (i : nat) (x : status) : list (item * status) :=
    match l, i with
    | [], _ => []
    | (a, _) :: l', O => (a, x) :: l'
    | e :: l', S i' => e :: set_status l' i' x
    end.

  Variable max_processes : nat.

  (** watcher.py 157-168, _spawn_workers.  [work_list.pop()] takes the last item. *)
  Fixpoint spawn (fuel : nat) (wk : list item) (ths : list (item * status)) (tr : list nat)
    : list item * list (item * status) * list nat :=
    match fuel with
    | O => (wk, ths, tr)
    | S fuel' =>
        match rev wk with
        | [] => (wk, ths, tr)
        | w :: rest =>
            if (length tr <? max_processes)%nat
            then spawn fuel' (rev rest) (ths ++ [(w, Starting)]) (tr ++ [length ths])
            else (wk, ths, tr)
        end
    end.

  (** watcher.py 173: does this worker get killed?  [None] stands for [float("+inf")]. *)
  Definition over_deadline (curtime : option Z) (ths : list (item * status)) (i : nat) : bool :=
    match nth_error ths i with
    | None => false
    | Some (w, x) =>
        alive x && match curtime with None => true | Some t => deadline w <? t end && has_proc x
    end.

  Definition set_pc (p : pcs) (s : state) : state :=
    St p (clock s) (work s) (threads s) (tracked s) (queue s) (posted s) (yielded s).

  Definition is_working (s : state) : bool :=
    match tracked s, work s with
    | [], [] => false
    | _, _ => true
    end.

  (** Where a pruning continues: [garden_workers] spawns (189-190), [terminate] drops the
      remaining work (184-186) and the pass yields once more and returns (269-270). *)
  Definition prune_done (kept : list nat) (next : after) (s : state) : state :=
    match next with
    | GoAbort => St PAborted (clock s) [] (threads s) kept (queue s) (posted s)
                    (yielded s ++ [None])
    | _ => St (PSpawn next) (clock s) (work s) (threads s) kept (queue s) (posted s) (yielded s)
    end.

  Definition step_main (abort : bool) (s : state) : state :=
    match pc s with
    | PKill [] ct nx => set_pc (PKeep (tracked s) [] nx) s
    | PKill (i :: todo) ct nx =>
        if over_deadline ct (threads s) i then set_pc (PJoin i todo ct nx) s
        else set_pc (PKill todo ct nx) s
    | PJoin i todo ct nx =>
        if alive (status_of (threads s) i) then s
        else set_pc (PKill todo ct nx) s
    | PKeep [] kept nx => prune_done kept nx s
    | PKeep (i :: todo) kept nx =>
        if alive (status_of (threads s) i) then set_pc (PKeep todo (kept ++ [i]) nx) s
        else set_pc (PKeep todo kept nx) s
    | PSpawn nx =>
        let '(wk, ths, tr) := spawn (length (work s)) (work s) (threads s) (tracked s) in
        St (match nx with GoFirst => PFirst | _ => PLoop end)
           (clock s) wk ths tr (queue s) (posted s) (yielded s)
    | PFirst =>
        if is_working s then set_pc PLoop s
        else St PIdle (clock s) (work s) (threads s) (tracked s) (queue s) (posted s)
                (yielded s ++ [None])
    | PLoop => if is_working s then set_pc PGet s else set_pc PDone s
    | PGet =>
        match queue s with
        | [] => set_pc PPeriodic s
        | r :: q => St PMore (clock s) (work s) (threads s) (tracked s) q (posted s)
                       (yielded s ++ [Some r])
        end
    | PMore => match queue s with
               | [] => set_pc PPeriodic s
               | _ => set_pc PLoop s
               end
    | PPeriodic =>
        if abort then set_pc (PKill (tracked s) None GoAbort) s
        else set_pc (PKill (tracked s) (Some (clock s)) GoLoop) s
    | PDone => s
    | PIdle => s
    | PAborted => s
    end.

  Definition step (e : event) (s : state) : state :=
    match e with
    | Main abort => step_main abort s
    | Clock t => St (pc s) t (work s) (threads s) (tracked s) (queue s) (posted s) (yielded s)
    | Up i =>
        match nth_error (threads s) i with
        | Some (_, Starting) =>
            St (pc s) (clock s) (work s) (set_status (threads s) i Running) (tracked s)
               (queue s) (posted s) (yielded s)
        | _ => s
        end
    | Post i =>
        match nth_error (threads s) i with
        | Some (w, Running) =>
            St (pc s) (clock s) (work s) (set_status (threads s) i Posted) (tracked s)
               (queue s ++ [w]) (posted s ++ [w]) (yielded s)
        | _ => s
        end
    | Die i =>
        St (pc s) (clock s) (work s) (set_status (threads s) i Dead) (tracked s)
           (queue s) (posted s) (yielded s)
    end.

  Definition run (es : list event) (s : state) : state :=
    fold_left (fun s e => step e s) es s.

  (** The start of a pass (watcher.py 243-254): submit everything, then garden. *)
  Definition begin_pass (items : list item) (s : state) : state :=
    St (PKill (tracked s) (Some (clock s)) GoFirst) (clock s) (work s ++ items) (threads s)
       (tracked s) (queue s) (posted s) (yielded s).

  (** watcher.py 149-153, a new pool *)
  Definition new_pool (t : Z) : state := St PDone t [] [] [] [] [] [].
End Pool.

(** watcher.py 233-234, startpool *)
Definition pool_size (cpu_count : nat) : nat := cpu_count - 1.
