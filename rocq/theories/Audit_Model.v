(** Model of crosshair/auditwall.py: the wall against side effects *)
From Coq Require Import ZArith List Bool Ascii String.
Close Scope string_scope.
From Verif Require Import Py Str_Model Options_Model.
Import ListNotations.
Open Scope Z_scope.
Arguments of_string _%string.

(** str.split(":") and str.split(":", 1)[0] *)
Definition colon : Z := 58.
Fixpoint split_on (c : Z) (s : str) : list str :=
  match s with
  | [] => [[]]
  | x :: s =>
    if x =? c then [] :: split_on c s
    else match split_on c s with w :: r => (x :: w) :: r | [] => [[x]] end
  end.
Definition event_of (p : str) : str := hd [] (split_on colon p).
Definition args_of (p : str) : list str := tl (split_on colon p).
Definition mem (s : str) (l : list str) : bool := existsb (str_eqb s) l.

(** 28-30, with the values these constants have on Linux *)
Definition O_WRONLY := 1.
Definition O_RDWR := 2.
Definition O_CREAT := 64.
Definition O_EXCL := 128.
Definition O_TRUNC := 512.
Definition O_APPEND := 1024.
Definition BLOCKED_OPEN_FLAGS : Z :=
  Z.lor O_WRONLY (Z.lor O_RDWR (Z.lor O_APPEND (Z.lor O_CREAT (Z.lor O_EXCL O_TRUNC)))).

(** 171-219: the lists of make_handler *)
Definition rejected_events : list str := map of_string
  ["winreg.CreateKey"; "winreg.DeleteKey"; "winreg.DeleteValue"; "winreg.SaveKey"; "winreg.SetValue";
   "winreg.DisableReflectionKey"; "winreg.EnableReflectionKey"]%string.
Definition accepted_events : list str := map of_string
  ["os.putenv"; "os.unsetenv"; "msvcrt.heapmin"; "msvcrt.kbhit"; "glob.glob"; "msvcrt.get_osfhandle";
   "msvcrt.setmode"; "os.listdir"; "os.scandir"; "os.chdir"; "os.fwalk"; "os.getxattr"; "os.listxattr";
   "os.walk"; "pathlib.Path.glob"; "socket.gethostbyname"; "socket.__new__"; "socket.bind"; "socket.connect"]%string.
Definition rejected_families : list str := map of_string
  ["os"; "fcntl"; "ftplib"; "glob"; "imaplib"; "msvcrt"; "nntplib"; "pathlib"; "poplib"; "shutil"; "smtplib";
   "socket"; "sqlite3"; "subprocess"; "telnetlib"; "urllib"; "webbrowser"]%string.

(** 320-325: the trie of argument prefixes, nested dictionaries with a mark at the end of
    each prefix *)
Inductive trie := Node (ends : bool) (children : list (str * trie)).
Definition empty_trie := Node false [].
Definition ends (t : trie) : bool := let 'Node e _ := t in e.
Fixpoint lookup {A} (k : str) (d : list (str * A)) : option A :=
  match d with [] => None | (k', v) :: d => if str_eqb k k' then Some v else lookup k d end.
Definition child (t : trie) (k : str) : option trie := let 'Node _ c := t in lookup k c.
(** dictionary assignment *)
Fixpoint store {A} (k : str) (v : A) (d : list (str * A)) : list (str * A) :=
  match d with [] => [(k, v)] | (k', v') :: d => if str_eqb k k' then (k', v) :: d else (k', v') :: store k v d end.
(** 322-325: walk down with setdefault, then mark the end *)
Fixpoint insert (p : list str) (t : trie) : trie :=
  match p with
  | [] => let 'Node _ c := t in Node true c
  | k :: p => let 'Node e c := t in
              Node e (store k (insert p (match lookup k c with Some u => u | None => empty_trie end)) c)
  end.
Definition make_trie (ps : list (list str)) : trie := fold_left (fun t p => insert p t) ps empty_trie.
(** 327-334: does the walk along the tokens meet the end of a prefix? *)
Fixpoint walk (t : trie) (tokens : list str) : bool :=
  match tokens with
  | [] => false
  | a :: r => match child t a with
              | None => false
              | Some u => if ends u then true else walk u r
              end
  end.

(** Handlers *)
Inductive handler :=
| HAccept | HReject                                    (* 82, 98 *)
| HOpen | HMsvcrtOpen | HSubprocess                    (* 114, 126, 152 *)
| HPrefix (t : trie) (on_miss on_match : handler).     (* 327 *)
Definition dict := list (str * handler).
(** 157-162 _SPECIAL_HANDLERS *)
Definition default_special : dict :=
  [(of_string "open", HOpen); (of_string "subprocess.Popen", HSubprocess);
   (of_string "os.posix_spawn", HSubprocess); (of_string "msvcrt.open_osfhandle", HMsvcrtOpen)].
(** 165-219 make_handler *)
Definition make_handler (special : dict) (event : str) : handler :=
  match lookup event special with
  | Some h => h
  | None =>
    if mem event rejected_events then HReject
    else if mem event accepted_events then HAccept
    else if mem (hd [] (split_on 46 event)) rejected_families then HReject
    else HAccept
  end.
(** 309-336 _make_prefix_based_handler: a rule that accepts rejects the rest when the event
    has no handler yet, and the other way round *)
Definition is_accept (h : handler) : bool := match h with HAccept => true | _ => false end.
Definition prefix_handler (prefixes : list (list str)) (previous : option handler) (on_match : handler) : handler :=
  HPrefix (make_trie prefixes)
    (match previous with Some h => h | None => if is_accept on_match then HReject else HAccept end) on_match.

(** sorted: the order of strings is by code point *)
Fixpoint str_leb (a b : str) : bool :=
  match a, b with
  | [], _ => true
  | _ :: _, [] => false
  | x :: a, y :: b => (x <? y) || ((x =? y) && str_leb a b)
  end.
Fixpoint insert_sorted (x : str) (l : list str) : list str :=
  match l with [] => [x] | y :: l' => if str_leb x y then x :: l else y :: insert_sorted x l' end.
Definition sorted (l : list str) : list str := fold_right insert_sorted [] l.
(** itertools.groupby with the event as key *)
Fixpoint groupby (l : list str) : list (str * list str) :=
  match l with
  | [] => []
  | p :: l =>
    match groupby l with
    | (k, g) :: r => if str_eqb (event_of p) k then (k, p :: g) :: r else (event_of p, [p]) :: (k, g) :: r
    | [] => [(event_of p, [p])]
    end
  end.
(** 339-355 _update_special_handlers *)
Definition update1 (terminal : handler) (special : dict) (eg : str * list str) : dict :=
  let '(event, group) := eg in
  if existsb (fun g => str_eqb event g) group then store event terminal special
  else store event (prefix_handler (map args_of group) (lookup event special) terminal) special.
Definition update_special (prefixes : list str) (terminal : handler) (special : dict) : dict :=
  fold_left (update1 terminal) (groupby (sorted prefixes)) special.

Section Events.
(** The arguments of an event, and what the handlers look at: *)
Variable args : Type.
(** the arguments as a list, str(), os.fsdecode or str() (37), the parts of a command
    (67-71), the parts of a command line as shlex or str.split give them (41-51) *)
Variable arg : Type.
Variable arg_list : args -> list arg.
Variable to_str as_text : arg -> str.
Inductive command := Sequence (l : list arg) | Text | Other.
Variable kind : arg -> command.
Variable is_none : arg -> bool.
Variable split_command : str -> list str.
(** the file name when it is a string and the flags of an open event (115), the flags of a
    msvcrt event (127) *)
Variable open_name : args -> option str.
Variable open_flags : args -> Z.
(** is a frame of one of the allowed modules on the stack? (103-111, 140-149) *)
Variable inside_allowed : args -> bool.

(** 54-77 match_tokens *)
Definition spawn_events : list str := map of_string ["subprocess.Popen"; "os.posix_spawn"]%string.
Definition match_tokens (event : str) (a : args) : list str :=
  let plain := map to_str (arg_list a) in
  if mem event spawn_events then
    match arg_list a with
    | executable :: cmd :: _ =>
      let tokens := match kind cmd with
                    | Sequence l => map as_text l
                    | Text => split_command (as_text cmd)
                    | Other => []
                    end in
      let tokens := match tokens with [] => if is_none executable then [] else [as_text executable] | _ => tokens end in
      match tokens with [] => plain | _ => tokens end
    | _ => plain
    end
  else plain.
(** 84-95 explain: the argument of --unblock that the message proposes *)
Definition proposal (event : str) (a : args) : str :=
  event ++ flat_map (fun t => colon :: t) (match_tokens event a).

(** Does the handler let the event pass?  Otherwise it raises SideEffectDetected. *)
Fixpoint lets_pass (h : handler) (event : str) (a : args) : bool :=
  match h with
  | HAccept => true
  | HReject => false
  | HOpen =>                                                             (* 114-123 *)
    if match open_name a with Some n => mem n (map of_string ["/dev/null"; "nul"]%string) | None => false end then true
    else (Z.land (open_flags a) BLOCKED_OPEN_FLAGS =? 0)
  | HMsvcrtOpen => (Z.land (open_flags a) BLOCKED_OPEN_FLAGS =? 0)       (* 126-132 *)
  | HSubprocess => inside_allowed a                                      (* 152-154 *)
  | HPrefix t on_miss on_match =>
    if walk t (match_tokens event a) then lets_pass on_match event a else lets_pass on_miss event a
  end.

(** 222-224: the globals *)
Record wall := mkWall { enabled_ : bool; installed : bool; special_ : dict; cache : dict }.
Definition initial : wall := mkWall true false default_special [].
(** 227-234 audithook.  The interpreter runs it for an event once the hook is installed
    (installing it twice runs it twice, with the same answer). *)
Definition audit (w : wall) (event : str) (a : args) : bool * wall :=
  if negb (installed w) then (true, w)
  else if negb (enabled_ w) then (true, w)
  else
    let h := match lookup event (cache w) with Some h => h | None => make_handler (special_ w) event end in
    (lets_pass h event a, mkWall true true (special_ w) (store event h (cache w))).
(** 358-365 engage_auditwall *)
Definition everything : str := of_string "EVERYTHING".
Definition engage (allow : list str) (w : wall) : wall :=
  if mem everything allow then w
  else mkWall (enabled_ w) true (update_special allow HAccept (special_ w)) (cache w).

(** Programs, as far as the wall is concerned: events, the two contexts and exception
    handling.  [Attempt] goes on after an exception. *)
Inductive prog :=
| Skip
| Event (event : str) (a : args)
| Then (p q : prog)
| Attempt (p : prog)
| Opened (p : prog)                                     (* 237-244 opened_auditwall *)
| Enabled (allow reject : list str) (p : prog).         (* 247-306 enabled_auditwall *)
Inductive outcome := Done | SideEffectDetected | AssertionFailed.
(** What happens, in order: an event takes effect or is stopped *)
Inductive act := Effect (event : str) (a : args) | Stopped (event : str) (a : args).
Definition nonempty {A} (l : list A) : bool := match l with [] => false | _ => true end.
Fixpoint run (p : prog) (w : wall) : list act * outcome * wall :=
  match p with
  | Skip => ([], Done, w)
  | Event e a => let '(b, w) := audit w e a in if b then ([Effect e a], Done, w) else ([Stopped e a], SideEffectDetected, w)
  | Then p q =>
    let '(t, o, w) := run p w in
    match o with Done => let '(t', o', w) := run q w in (t ++ t', o', w) | _ => (t, o, w) end
  | Attempt p => let '(t, _, w) := run p w in (t, Done, w)
  | Opened p =>
    if negb (enabled_ w) then ([], AssertionFailed, w)                    (* 240 *)
    else
      let '(t, o, w) := run p (mkWall false (installed w) (special_ w) (cache w)) in
      (t, o, mkWall true (installed w) (special_ w) (cache w))
  | Enabled allow reject p =>
    let was_active := installed w && enabled_ w in
    let w1 := if installed w then w else engage [] w in
    let sp := if nonempty allow then update_special allow HAccept (special_ w1) else special_ w1 in
    let sp := if nonempty reject then update_special reject HReject sp else sp in
    let ca := if nonempty allow || nonempty reject then [] else cache w1 in
    let '(t, o, w2) := run p (mkWall true (installed w1) sp ca) in
    (t, o, mkWall was_active (installed w2) (special_ w) (cache w))
  end.
End Events.
