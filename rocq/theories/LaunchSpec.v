(** What C81 says about starts and stops, apart from the code. *)
From Coq Require Import NArith ZArith List Bool String.
From Verif Require Import Base TextModel LaunchModel.
Import ListNotations.
Local Open Scope N_scope.
Local Open Scope list_scope.

(** The name of a socket: some bytes, none of them NUL. *)
Definition plain_name (p : bytes) : Prop := p <> [] /\ Forall (fun c => c <> 0) p.
(** A name is left behind by a server that was killed, until it is removed. *)
Fixpoint left_behind (dirty : bool) (es : list event) : bool :=
  match es with
  | [] => dirty
  | (Start | Fail _) :: es' => left_behind dirty es'
  | (Stop _ | Clean) :: es' => left_behind false es'
  | Kill :: es' => left_behind true es'
  end.
(** What a node and an index server have to do. *)
Definition node_needs (c : conf) (d : deed) : Prop :=
  match d with
  | Fork => c_daemon c = true | Socket => c_socket c <> [] | Watcher => c_watcher c = true | Copy => c_copy c = true
  | Options | Limits | Handlers | Port | Join | Database | Alarm | Mode | Pid => True
  | Coordinator | Meta | Hash | Controller | State => False
  end.
Definition index_needs (c : conf) (d : deed) : Prop :=
  match d with
  | Fork => c_daemon c = true | Socket => c_socket c <> []
  | Options | Limits | Handlers | Port | Alarm | Pid | Coordinator | Meta | Hash | Controller | State => True
  | Join | Database | Watcher | Mode | Copy => False
  end.
