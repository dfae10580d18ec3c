(** The vocabulary of requests: the word, or two words, of every command. *)
From Coq Require Import NArith List Bool String.
From Verif Require Import Base NamesModel.
Import ListNotations.
Local Open Scope list_scope.

Definition ncommand_words (x : ncommand) : option (bytes * option bytes) :=
  match x with
  | nc_get => Some (s2b "get", None)
  | nc_set => Some (s2b "set", None)
  | nc_add => Some (s2b "add", None)
  | nc_replace => Some (s2b "replace", None)
  | nc_cas => Some (s2b "cas", None)
  | nc_append => Some (s2b "append", None)
  | nc_prepend => Some (s2b "prepend", None)
  | nc_incr => Some (s2b "incr", None)
  | nc_decr => Some (s2b "decr", None)
  | nc_delete => Some (s2b "delete", None)
  | nc_gets => Some (s2b "gets", None)
  | nc_touch => Some (s2b "touch", None)
  | nc_gat => Some (s2b "gat", None)
  | nc_ping => Some (s2b "ping", None)
  | nc_stats => Some (s2b "stats", None)
  | nc_node_sync => Some (s2b "node", Some (s2b "sync"))
  | nc_keys => Some (s2b "keys", None)
  | nc_dump => Some (s2b "dump", None)
  | nc_dump_key => Some (s2b "dump_key", None)
  | nc_flush_all => Some (s2b "flush_all", None)
  | nc_kill => Some (s2b "kill", None)
  | nc_quit => Some (s2b "quit", None)
  | nc_verbosity => Some (s2b "verbosity", None)
  | nc_version => Some (s2b "version", None)
  | nc_show => Some (s2b "show", None)
  | nc_error => None
  end.

Definition icommand_words (x : icommand) : option (bytes * option bytes) :=
  match x with
  | ic_ping => Some (s2b "ping", None)
  | ic_stats => Some (s2b "stats", None)
  | ic_node_add => Some (s2b "node", Some (s2b "add"))
  | ic_node_remove => Some (s2b "node", Some (s2b "remove"))
  | ic_node_role => Some (s2b "node", Some (s2b "role"))
  | ic_node_state => Some (s2b "node", Some (s2b "state"))
  | ic_kill => Some (s2b "kill", None)
  | ic_quit => Some (s2b "quit", None)
  | ic_meta => Some (s2b "meta", None)
  | ic_verbosity => Some (s2b "verbosity", None)
  | ic_version => Some (s2b "version", None)
  | ic_show => Some (s2b "show", None)
  | ic_shutdown => Some (s2b "shutdown", None)
  | ic_error => None
  end.

