(** Vocabulary of the stream property: what "independent of chunking" means. *)
From Coq Require Import String NArith ZArith List.
From Verif Require Import Base StorageModel TextModel StreamModel.
Import ListNotations.
Local Open Scope N_scope.
Local Open Scope list_scope.

(** The bytes the connection still has to deliver. *)
Definition stream (c : conn) : bytes := unread c ++ concat (segs c).
(** Segments are what a read of the socket returns: at least one byte. *)
Definition wf_conn (c : conn) : Prop := Forall (fun s => s <> []) (segs c).

(** A read off the connection gives what the same read gives on the plain byte
    string, and leaves a connection that still has to deliver exactly the rest. *)
Definition agrees {A} (x : res (A * conn)) (y : res (A * bytes)) : Prop :=
  match x, y with
  | Ok (a, c), Ok (b, s) => a = b /\ stream c = s /\ wf_conn c
  | Err, Err => True
  | Undef, Undef => True
  | _, _ => False
  end.

(** The state in which push_back of the protocol byte goes wrong: all the buffer
    is consumed but not released, and the next read delivers one byte. *)
Definition stale (c : conn) : Prop :=
  exists pre x ss, pre <> [] /\ rbuf c = Some (pre, []) /\ segs c = [x] :: ss.

(** A request line without NUL that does not end in two CRs; with flush_all and verbosity, where a number follows the
    first word, it is shorter than the buffer for that number. *)
Definition plain_line (s : bytes) : Prop :=
  forall line rest, get_line s = Ok (line, rest) -> ~ In 0 line /\ (forall q, line <> q ++ [13; 10]) /\
    forall cmd r, parse_command line = Ok (cmd, r) -> In (c_word cmd) [s2b "flush_all"; s2b "verbosity"] -> blen line < 8192.

(** Serving the text requests [l] one after the other: off the byte string, and
    off the connection.  [small]: the data block is read in pieces of at most
    1024 bytes. *)
Definition small (r : request) : Prop :=
  match r with RStore _ e => e_size e <= 1022 | _ => True end.
Inductive stream_session (now : Z) : bytes -> list (command * request) -> bytes -> Prop :=
| ss_nil s : stream_session now s [] s
| ss_cons s cmd r s1 l s2 :
    hd 0 s <> magic_request -> plain_line s -> small r ->
    serve_request now s = Ok (cmd, r, s1) -> stream_session now s1 l s2 ->
    stream_session now s ((cmd, r) :: l) s2.
Inductive conn_session (now : Z) : conn -> list (command * request) -> conn -> Prop :=
| cs_nil c : conn_session now c [] c
| cs_cons c cmd r c1 l c2 :
    conn_serve now c = Ok (cmd, r, c1) -> conn_session now c1 l c2 ->
    conn_session now c ((cmd, r) :: l) c2.
