(** Model of the order of a start: flared::startup (src/flared/flared.cc:140-300), flarei::startup (src/flarei/flarei.cc:126-287),
    app::_daemonize (src/lib/app.cc:111-141), main (flared.cc:563-575), and of the local socket of a server: server::listen and
    server::close (src/lib/server.cc:67-125, 190-251). *)
From Coq Require Import NArith ZArith List Bool String.
From Verif Require Import Base TextModel.
Import ListNotations.
Local Open Scope N_scope.
Local Open Scope list_scope.

(** ** The order *)
(** What a start does that can fail or that others can see.  Objects that are only made are left out. *)
Inductive deed :=
| Options | Limits | Fork | Handlers | Port | Socket | Join | Database | Alarm | Watcher | Mode | Copy | Pid   (* node *)
| Coordinator | Meta | Hash | Controller | State.                                                          (* index server *)
(** The options that decide: daemonize, server-socket, the watcher, cluster replication. *)
Record conf := mkConf { c_daemon : bool; c_socket : bytes; c_watcher : bool; c_copy : bool }.
Definition when (b : bool) (d : deed) : list deed := if b then [d] else [].
Definition has_socket (c : conf) : bool := match c_socket c with [] => false | _ => true end.
(** flared.cc:141-299 *)
Definition node_plan (c : conf) : list deed :=
  [Options; Limits] ++ when (c_daemon c) Fork ++ [Handlers; Port] ++ when (has_socket c) Socket ++ [Join; Database; Alarm]
  ++ when (c_watcher c) Watcher ++ [Mode] ++ when (c_copy c) Copy ++ [Pid].
(** flarei.cc:127-286 *)
Definition index_plan (c : conf) : list deed :=
  [Options; Limits] ++ when (c_daemon c) Fork ++ [Coordinator; Meta; Handlers; Port] ++ when (has_socket c) Socket
  ++ [Hash; Controller; State; Alarm; Pid].
(** One after the other until one fails: what was done, and whether the start succeeded *)
Fixpoint launch (works : deed -> bool) (plan : list deed) : list deed * bool :=
  match plan with
  | [] => ([], true)
  | d :: plan' => if works d then let '(l, ok) := launch works plan' in (d :: l, ok) else ([], false)
  end.
(** What the one who called the program is told: [None] as long as it runs.  app.cc:120-122: with daemonize the parent ends
    with 0 as soon as there is a child; else main gives the result (flared.cc:567-569), -1 being 255 for the caller. *)
Definition status (works : deed -> bool) (c : conf) (plan : list deed) : option Z :=
  let '(done, ok) := launch works plan in
  if existsb (fun d => match d with Fork => true | _ => false end) done then Some 0%Z
  else if ok then None else Some 255%Z.

(** ** The local socket *)
(** server.cc:211-213: sun_path has 108 bytes, of which 107 are filled *)
Definition bound_path (uds : bytes) : bytes := firstn 107 (cstr uds).
Definition set_path (paths : bytes -> bool) (p : bytes) (b : bool) : bytes -> bool := fun q => if beq q p then b else paths q.
(** server.cc:214-218: bind fails if the name is taken, whether or not anyone listens there *)
Definition listen_unix (paths : bytes -> bool) (uds : bytes) : option (bytes -> bool) :=
  if paths (bound_path uds) then None else Some (set_path paths (bound_path uds) true).
(** server.cc:70, 96-98, 110-111: getsockname fills a struct sockaddr of 16 bytes, two of them for the family; the name is then read as a
    C string from there on, into what lies behind the 16 bytes ([mem]) if there was no room for its end. *)
Definition reported (p mem : bytes) : bytes := cstr (firstn 14 (p ++ [0]) ++ mem).
(** server.cc:104-117 *)
Definition close_unix (paths : bytes -> bool) (p mem : bytes) : bytes -> bool := set_path paths (reported p mem) false.

(** The lives of a server at one machine: it starts, it starts and fails after the socket was made, it is stopped (both with what is then
    behind the address: the destructor of the server, server.cc:53-57, closes the sockets), it is killed, and somebody removes the
    name by hand. *)
Inductive event := Start | Fail (mem : bytes) | Stop (mem : bytes) | Kill | Clean.
Record machine := mkMachine { m_paths : bytes -> bool; m_up : bool }.
(** [None]: does not apply; otherwise the machine after it *)
Definition live_step (uds : bytes) (m : machine) (e : event) : option machine :=
  match e, m_up m with
  | Start, false => match listen_unix (m_paths m) uds with Some ps => Some (mkMachine ps true) | None => Some m end
  | Fail mem, false => match listen_unix (m_paths m) uds with Some ps => Some (mkMachine (close_unix ps (bound_path uds) mem) false) | None => Some m end
  | Stop mem, true => Some (mkMachine (close_unix (m_paths m) (bound_path uds) mem) false)
  | Kill, true => Some (mkMachine (m_paths m) false)
  | Clean, false => Some (mkMachine (set_path (m_paths m) (bound_path uds) false) false)
  | _, _ => None
  end.
Fixpoint live (uds : bytes) (m : machine) (es : list event) : option machine :=
  match es with [] => Some m | e :: es' => match live_step uds m e with Some m' => live uds m' es' | None => None end end.
