(** Model of crosshair/lsp_server.py: the messages shown in an editor.  Two threads: the one that handles the
    editor's notifications (did_change, did_close, did_open, did_save, 224-254) and the one that runs the
    analysis and publishes its messages (run_watch_loop, 125-182, publish_messages, 86-104).

    One step of a thread is one access to the shared dictionary; the two loops over "list(....items())" read
    all entries at once and then treat one entry per step.  Documents and source lines are numbers; a message
    has a rank (MessageType._order) and a text.  The watcher and the analysis are the events that report
    messages. *)
From Coq Require Import List Bool Arith.
Import ListNotations.

Definition uri := nat.
Record message := Msg { rank : nat; text : nat }.
Definition PRE_UNSAT := 2.
(** a dictionary of the messages of a file by line, or None: closed or being edited *)
Inductive slot := Editing | Msgs (l : list (nat * message)).

Fixpoint get {V} (d : list (nat * V)) (k : nat) : option V :=
  match d with [] => None | (k', v) :: d => if Nat.eqb k' k then Some v else get d k end.
Fixpoint put {V} (d : list (nat * V)) (k : nat) (v : V) : list (nat * V) :=
  match d with [] => [(k, v)] | (k', v') :: d => if Nat.eqb k' k then (k', v) :: d else (k', v') :: put d k v end.
Fixpoint del {V} (d : list (nat * V)) (k : nat) : list (nat * V) :=
  match d with [] => [] | (k', v) :: d => if Nat.eqb k' k then d else (k', v) :: del d k end.

(** what the analysis thread has still to do in its present loop *)
Inductive task := TPublish (u : uri) (s : slot) | TRestart (u : uri) (s : slot).
Record server := Server {
  active : list (uri * slot);              (* active_messages *)
  jobs : list task;
  client : uri -> list (nat * message) }.  (* what the editor shows: the last diagnostics published *)
Definition initial : server := Server [] [] (fun _ => []).
Definition publish (c : uri -> list (nat * message)) (u : uri) (l : list (nat * message)) : uri -> list (nat * message) :=
  fun v => if Nat.eqb v u then l else c v.

Inductive event :=
| Change (u : uri) | Close (u : uri) | Open (u : uri) | Save (u : uri)
| Report (u : uri) (line : nat) (m : message)
| BeginPublish | BeginRestart | Next.

(** 95-100 *)
Definition diagnostics (l : list (nat * message)) : list (nat * message) := filter (fun p => negb (rank (snd p) <? PRE_UNSAT)) l.
(** 164-171 *)
Definition report (a : list (uri * slot)) (u : uri) (line : nat) (m : message) : list (uri * slot) :=
  (* defaultdict *)
  let a := match get a u with None => put a u (Msgs []) | Some _ => a end in
  match get a u with
  | Some (Msgs l) =>
      match get l line with
      | None => put a u (Msgs (put l line m))
      | Some old => if rank old <? rank m then put a u (Msgs (put l line m)) else a
      end
  | _ => a
  end.
Definition step (s : server) (e : event) : server :=
  match e with
  (* 225-231, 234-239 *)
  | Change u | Close u => Server (put (active s) u Editing) (jobs s) (publish (client s) u [])
  (* 242-245 *)
  | Open u => Server (put (active s) u (Msgs [])) (jobs s) (client s)
  (* 248-252 *)
  | Save u => Server (put (active s) u (Msgs [])) (jobs s) (publish (client s) u [])
  (* the analysis thread; while it has jobs it does nothing else *)
  | Report u line m => match jobs s with [] => Server (report (active s) u line m) [] (client s) | _ => s end
  (* 90 *)
  | BeginPublish => match jobs s with [] => Server (active s) (map (fun p => TPublish (fst p) (snd p)) (active s)) (client s) | _ => s end
  (* 151-152 *)
  | BeginRestart => match jobs s with [] => Server (active s) (map (fun p => TRestart (fst p) (snd p)) (active s)) (client s) | _ => s end
  | Next =>
      match jobs s with
      | [] => s
      | TPublish u Editing :: j => Server (active s) j (client s)
      | TPublish u (Msgs l) :: j =>
          let d := diagnostics l in
          Server (match d with [] => del (active s) u | _ => active s end) j (publish (client s) u d)
      | TRestart u v :: j => Server (put (active s) u (match v with Editing => Editing | Msgs _ => Msgs [] end)) j (client s)
      end
  end.
Definition run (s : server) (h : list event) : server := fold_left step h s.

(** Histories in which the loops of the analysis thread are not interrupted *)
Inductive action :=
| AChange (u : uri) | AClose (u : uri) | AOpen (u : uri) | ASave (u : uri)
| AReport (u : uri) (line : nat) (m : message)
| APublish | ARestart.
Definition finish (s : server) : server := run s (repeat Next (length (jobs s))).
Definition act (s : server) (a : action) : server :=
  match a with
  | AChange u => step s (Change u) | AClose u => step s (Close u) | AOpen u => step s (Open u) | ASave u => step s (Save u)
  | AReport u line m => step s (Report u line m)
  | APublish => finish (step s BeginPublish)
  | ARestart => finish (step s BeginRestart)
  end.
Definition perform (h : list action) : server := fold_left act h initial.

(** * get_diagnostic, 60-82: the place of a message.  A line of text is a list of characters, [true] for white
    space; pattern "^\s*(.*?)\s*$". *)
Fixpoint leading (l : list bool) : nat := match l with true :: l => S (leading l) | _ => 0 end.
Definition column_range (column : nat) (line : option (list bool)) : nat * nat :=
  match column, line with
  | O, Some l => let c := leading l in (c, Nat.max c (length l - leading (rev l)))
  | _, _ => (column, column)
  end.
