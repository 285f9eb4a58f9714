(** What the wall against side effects promises *)
From Coq Require Import ZArith List Bool String.
Close Scope string_scope.
From Verif Require Import Py Str_Model Options_Model Audit_Model.
Import ListNotations.
Open Scope Z_scope.

(** A rule, as given to --unblock, is an event name with some of its arguments after it,
    each preceded by a colon; it names the events that begin that way. *)
Definition no_colon (s : str) : Prop := ~ In colon s.
Definition written (event : str) (parts : list str) : str := event ++ flat_map (fun t => colon :: t) parts.
Definition names (rule event : str) (tokens : list str) : Prop :=
  exists parts rest, rule = written event parts /\ Forall no_colon (event :: parts) /\ tokens = parts ++ rest.
Definition some_names (rules : list str) (event : str) (tokens : list str) : Prop := exists r, In r rules /\ names r event tokens.

(** Opening a file for writing: any of these bits of the flags is set *)
Definition writes (flags : Z) : Prop :=
  exists bit, In bit [0; 1; 6; 7; 9; 10] (* O_WRONLY O_RDWR O_CREAT O_EXCL O_TRUNC O_APPEND *) /\ Z.testbit flags bit = true.

Section Events.
Variable args : Type.
Variable tokens : str -> args -> list str.
Variable open_name : args -> option str.
Variable open_flags : args -> Z.
Variable inside_allowed : args -> bool.
(** Families of events that reach outside of the process, and events that are let pass all the same *)
Definition outside (event : str) : Prop :=
  exists family, In family ["os"; "fcntl"; "ftplib"; "glob"; "imaplib"; "msvcrt"; "nntplib"; "pathlib"; "poplib";
    "shutil"; "smtplib"; "socket"; "sqlite3"; "subprocess"; "telnetlib"; "urllib"; "webbrowser"]%string /\
  (event = of_string family \/ exists more, event = of_string family ++ of_string "." ++ more).
Definition registry_change (event : str) : Prop :=
  In event (map of_string ["winreg.CreateKey"; "winreg.DeleteKey"; "winreg.DeleteValue"; "winreg.SaveKey"; "winreg.SetValue";
   "winreg.DisableReflectionKey"; "winreg.EnableReflectionKey"]%string).
Definition harmless (event : str) : Prop :=
  In event (map of_string ["os.putenv"; "os.unsetenv"; "msvcrt.heapmin"; "msvcrt.kbhit"; "glob.glob"; "msvcrt.get_osfhandle";
   "msvcrt.setmode"; "os.listdir"; "os.scandir"; "os.chdir"; "os.fwalk"; "os.getxattr"; "os.listxattr";
   "os.walk"; "pathlib.Path.glob"; "socket.gethostbyname"; "socket.__new__"; "socket.bind"; "socket.connect"]%string).
Definition always (event : str) : Prop := ~ registry_change event /\ (harmless event \/ ~ outside event).
(** Events that are let pass depending on their arguments *)
Definition depends (event : str) : Prop :=
  In event (map of_string ["open"; "subprocess.Popen"; "os.posix_spawn"; "msvcrt.open_osfhandle"]%string).
(** Without any rules *)
Definition by_default (event : str) (a : args) : Prop :=
  (event = of_string "open" /\ (open_name a = Some (of_string "/dev/null") \/ open_name a = Some (of_string "nul") \/ ~ writes (open_flags a)))
  \/ (event = of_string "msvcrt.open_osfhandle" /\ ~ writes (open_flags a))
  \/ ((event = of_string "subprocess.Popen" \/ event = of_string "os.posix_spawn") /\ inside_allowed a = true)
  \/ (~ depends event /\ always event).
(** Rules, the innermost first: they are given to allow events or to reject them *)
Inductive rules := Allow (l : list str) | Reject (l : list str).
Fixpoint permitted (layers : list rules) (event : str) (a : args) : Prop :=
  match layers with
  | [] => by_default event a
  | Allow l :: layers => some_names l event (tokens event a) \/ permitted layers event a
  | Reject l :: layers => ~ some_names l event (tokens event a) /\ permitted layers event a
  end.
(** What a program does inside the wall: [active] unless it is opened *)
Inductive behaves : bool -> list rules -> prog args -> list (act args) -> outcome -> Prop :=
| b_skip : forall b l, behaves b l (Skip _) [] Done
| b_event_off : forall l e a, behaves false l (Event _ e a) [Effect _ e a] Done
| b_event_pass : forall l e a, permitted l e a -> behaves true l (Event _ e a) [Effect _ e a] Done
| b_event_stop : forall l e a, ~ permitted l e a -> behaves true l (Event _ e a) [Stopped _ e a] SideEffectDetected
| b_then : forall b l p q t t' o, behaves b l p t Done -> behaves b l q t' o -> behaves b l (Then _ p q) (t ++ t') o
| b_then_raise : forall b l p q t o, behaves b l p t o -> o <> Done -> behaves b l (Then _ p q) t o
| b_attempt : forall b l p t o, behaves b l p t o -> behaves b l (Attempt _ p) t Done
| b_opened : forall l p t o, behaves false l p t o -> behaves true l (Opened _ p) t o
| b_opened_twice : forall l p, behaves false l (Opened _ p) [] AssertionFailed
| b_enabled : forall b l allow reject p t o, behaves true (Reject reject :: Allow allow :: l) p t o ->
    behaves b l (Enabled _ allow reject p) t o.
(** Rules narrowed to some arguments are in order when they go with the default: *)
Definition narrowed (p : str) : Prop := args_of p <> [].
Definition allow_ok (l : list str) : Prop := forall p, In p l -> narrowed p -> ~ depends (event_of p) -> ~ always (event_of p).
Definition reject_ok (l : list str) : Prop := forall p, In p l -> narrowed p -> ~ depends (event_of p) -> always (event_of p).
Fixpoint prog_ok (p : prog args) : Prop :=
  match p with
  | Skip _ | Event _ _ _ => True
  | Then _ p q => prog_ok p /\ prog_ok q
  | Attempt _ p | Opened _ p => prog_ok p
  | Enabled _ al rj p => allow_ok al /\ reject_ok rj /\ prog_ok p
  end.
End Events.
