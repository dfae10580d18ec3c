(** Addresses as their users write them. *)
From Coq Require Import NArith ZArith List Bool String.
From Verif Require Import Base.
Import ListNotations.
Local Open Scope N_scope.

(** an address: scheme://[user@]host[:port]/path[?query][#fragment], the path with its slash, the port as its
    digits *)
Record address := mkAddress
  { a_scheme : bytes; a_user : option bytes; a_host : bytes; a_port : option bytes;
    a_path : bytes; a_query : option bytes; a_fragment : option bytes }.
Definition before (o : option bytes) (w : bytes) : bytes := match o with Some x => x ++ w | None => [] end.
Definition behind (w : bytes) (o : option bytes) : bytes := match o with Some x => w ++ x | None => [] end.
Definition server_text (user : option bytes) (host : bytes) (port : option bytes) : bytes :=
  before user (s2b "@") ++ host ++ behind (s2b ":") port.
Definition rest_text (path : bytes) (query fragment : option bytes) : bytes :=
  path ++ behind (s2b "?") query ++ behind (s2b "#") fragment.
Definition text (a : address) : bytes :=
  a_scheme a ++ s2b "://" ++ server_text (a_user a) (a_host a) (a_port a)
  ++ rest_text (a_path a) (a_query a) (a_fragment a).

(** none of the characters of [l] is in [w] *)
Definition without (l : string) (w : bytes) : Prop := forall x, In x (s2b l) -> ~ In x w.
Definition opt_all (P : bytes -> Prop) (o : option bytes) : Prop := match o with Some x => P x | None => True end.
Definition digits (w : bytes) : Prop := w <> [] /\ Forall (fun x => is_digit x = true) w.
Definition good_server (user : option bytes) (host : bytes) (port : option bytes) : Prop :=
  opt_all (without ":/@") user /\ without ":@/" host /\ opt_all digits port.
Definition good_rest (path : bytes) (query : option bytes) : Prop :=
  (exists t, path = s2b "/" ++ t) /\ without "?" path /\ opt_all (without "#") query.
Definition good (a : address) : Prop :=
  a_scheme a <> [] /\ without ":" (a_scheme a) /\ good_server (a_user a) (a_host a) (a_port a)
  /\ good_rest (a_path a) (a_query a).
Definition opt (o : option bytes) : bytes := match o with Some x => x | None => [] end.

(** a directory named from the root, and one that has no question mark in its name *)
Definition from_root (d : bytes) : Prop := exists t, d = s2b "/" ++ t.
Definition plain_dir (d : bytes) : Prop := without "?" d.

(** a ZooKeeper server: a user or none, host and port; as it is written in the option, and as ZooKeeper's
    library wants it *)
Record server := mkServer { s_user : option bytes; s_host : bytes; s_port : N }.
Definition good_zk (x : server) : Prop :=
  opt_all (without ":/@,") (s_user x) /\ without ":@/," (s_host x) /\ s_port x < 2147483648.
Definition written (x : server) : bytes := server_text (s_user x) (s_host x) (Some (dec (s_port x))).
Definition named (x : server) : bytes := s_host x ++ s2b ":" ++ dec (s_port x).
Fixpoint comma_list (l : list bytes) : bytes :=
  match l with [] => [] | [w] => w | w :: r => w ++ s2b "," ++ comma_list r end.
Definition zk_text (l : list server) (path : bytes) : bytes :=
  s2b "zookeeper://" ++ comma_list (map written l) ++ path.
