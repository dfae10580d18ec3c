(** Model of several index servers that keep one cluster map in ZooKeeper:
    zookeeper_coordinator.cc with cluster.cc:1741-1870 ([_save], [_load], [_update]).

    Every operation of every server has a lock object (LockModel); [home] says whose
    it is.  A server has its memory, a session that sees the changes of the stored
    map in their order but maybe late, and ZooKeeper's thread that delivers watch
    events and completions one after the other.  Calls may fail.  Left out: the
    XML form of the map, the monitoring threads, crashes (a start of a server is the
    operation [ERestart]), and the end of a server's own session (a server whose
    session is gone can no longer load or store: its calls fail). *)
From Coq Require Import NArith ZArith List Bool.
From Verif Require Import Base TextModel ClusterModel LockModel.
Import ListNotations.
Local Open Scope N_scope.
Local Open Scope list_scope.

(** What ZooKeeper's thread of a server has to deliver: a change of the map, the
    completion of the zoo_async of operation [i]. *)
Inductive delivery := Changed | Flush (i : N).
(** [mem]: the server's variables (the coordinator's state is not one of them);
    [view]: how many changes of the map its session has seen; [watch]: zoo_wexists is
    armed; [handler]: ZooKeeper's thread is between _update, which saw [n] changes, and
    zoo_wexists; [busy]: an operation holds _mutex_node_map. *)
Record server := mkServer {
  mem : index; view : nat; watch : bool; queue : list delivery; handler : option nat; busy : bool }.
(** Where an operation that has the lock is: the flush sent when [n] maps had been
    stored, its answer on the way, delivered; about to store; over. *)
Inductive phase :=
| OIdle | OSync (n : nat) | OAnswered | OSynced | OStore (e : ClusterModel.event) (r : Z) (w : saved) | OEnd.
(** An operation with its lock object, the request, whether the map was loaded, the answer *)
Record answered := mkAnswered { a_op : N; a_event : ClusterModel.event; a_loaded : bool; a_ret : Z }.
(** [log]: the maps that have been stored, oldest first; [late]: stores that are
    reported as failed but may still take effect. *)
Record ist := mkIst {
  lk : LockModel.st; log : list saved; srv : N -> server; op : N -> phase; late : list saved; ops : list answered }.

Definition forget (s : index) : index := mkIndex (i_map s) (i_thread s) (i_version s) (i_parts s) (i_prep s) None.
Definition with_disk (s : index) (d : option saved) : index := mkIndex (i_map s) (i_thread s) (i_version s) (i_parts s) (i_prep s) d.
(** The map after [n] stores; before the first the node is empty *)
Definition stored (l : list saved) (n : nat) : option saved := match n with O => None | S k => nth_error l k end.

Definition set_srv (s : ist) (j : N) (v : server) : ist :=
  mkIst (lk s) (log s) (fun x => if x =? j then v else srv s x) (op s) (late s) (ops s).
Definition set_op (s : ist) (i : N) (p : phase) : ist :=
  mkIst (lk s) (log s) (srv s) (fun x => if x =? i then p else op s x) (late s) (ops s).
Definition set_lk (s : ist) (l : LockModel.st) : ist := mkIst l (log s) (srv s) (op s) (late s) (ops s).
Definition set_log (s : ist) (l : list saved) : ist := mkIst (lk s) l (srv s) (op s) (late s) (ops s).
Definition set_late (s : ist) (l : list saved) : ist := mkIst (lk s) (log s) (srv s) (op s) l (ops s).
Definition answer_op (s : ist) (a : answered) : ist := mkIst (lk s) (log s) (srv s) (op s) (late s) (ops s ++ [a]).
Definition with_mem (v : server) (m : index) : server := mkServer m (view v) (watch v) (queue v) (handler v) (busy v).
Definition with_busy (v : server) (b : bool) : server := mkServer (mem v) (view v) (watch v) (queue v) (handler v) b.
Definition deliver (v : server) (d : delivery) : server := mkServer (mem v) (view v) (watch v) (queue v ++ [d]) (handler v) (busy v).
(** The session sees the changes up to the [n]th; the first of them fires the watch. *)
Definition sees (v : server) (n : nat) : server :=
  if (view v <? n)%nat
  then mkServer (mem v) n false (if watch v then queue v ++ [Changed] else queue v) (handler v) (busy v)
  else v.

(** cluster.cc:1857-1870 [_update] with what restore_state gives *)
Definition update (ok : bool) (m : index) (d : option saved) : index :=
  let (r, m) := load (mkIo true ok SaveOk) (with_disk m d) in
  forget (if r then refresh m else m).
(** An operation up to store_state, with the map its session sees: the answer if the
    store succeeds, the memory, and what is to be stored, if anything. *)
Definition body (ok : bool) (m : index) (d : option saved) (e : ClusterModel.event) : res (Z * index * option saved) :=
  let f := mkIo true ok SaveOk in
  let* (r, m') := handle f (with_disk m d) e in
  Ok (r, forget m', if i_version m' =? i_version (snd (load f (with_disk m d))) then None else i_disk m').

(** cluster.cc:1060-1078: a request for the state "prepare" is refused at once. *)
Definition is_operation (e : ClusterModel.event) : bool := match e with EState _ _ Prepare => false | _ => true end.

Inductive outcome := Stored | Unstored | Late.
Inductive ievent :=
| Lock (e : LockModel.event)
| Sync (i : N)                                      (* zookeeper_coordinator.cc:123-127 *)
| Answer (i : N) (ok : bool)                        (* ZooKeeper answers the flush *)
| See (j : N)                                       (* the session sees another change *)
| Notice (j : N) (ok : bool)                        (* 361-372; [ok]: restore_state succeeds *)
| Rearm (j : N) (ok : bool)                         (* 373-380 *)
| Flushed (j : N)                                   (* 143-147, 385-391 *)
| Load (i : N) (e : ClusterModel.event) (ok : bool) (* cluster.cc: an operation up to _save *)
| Store (i : N) (o : outcome)                       (* 164-170; _save and after it *)
| Land (n : nat).                                   (* a late store takes effect *)

Section Indexes.
Variable uuid : N -> N -> bytes.
(** The server of an operation *)
Variable home : N -> N.

Definition is_held (s : ist) (i : N) : bool := match l_main (locks (lk s) i) with MHeld => true | _ => false end.
Definition istep (s : ist) (e : ievent) : res ist :=
  match e with
  | Lock (Release i) =>                             (* end_operation *)
      match op s i with
      | OIdle | OEnd => let* l := step uuid (lk s) (Release i) in Ok (set_op (set_lk s l) i OIdle)
      | _ => Err
      end
  | Lock e => let* l := step uuid (lk s) e in Ok (set_lk s l)
  | Sync i =>
      match op s i with
      | OIdle => if is_held s i then Ok (set_op s i (OSync (List.length (log s)))) else Err
      | _ => Err
      end
  | Answer i ok =>
      let v := srv s (home i) in
      match op s i with
      | OSync n => if negb ok || (n <=? view v)%nat then Ok (set_op (set_srv s (home i) (deliver v (Flush i))) i OAnswered) else Err
      | _ => Err
      end
  | See j =>
      let v := srv s j in
      if (view v <? List.length (log s))%nat then Ok (set_srv s j (sees v (S (view v)))) else Err
  | Notice j ok =>
      let v := srv s j in
      match queue v, handler v with
      | Changed :: q, None =>
          if busy v then Err
          else Ok (set_srv s j (mkServer (update ok (mem v) (stored (log s) (view v))) (view v) (watch v) q (Some (view v)) false))
      | _, _ => Err
      end
  | Rearm j ok =>
      let v := srv s j in
      match handler v with
      | Some _ => Ok (set_srv s j (mkServer (mem v) (view v) ok (queue v) None (busy v)))
      | None => Err
      end
  | Flushed j =>
      let v := srv s j in
      match queue v, handler v with
      | Flush i :: q, None => Ok (set_op (set_srv s j (mkServer (mem v) (view v) (watch v) q None (busy v))) i OSynced)
      | _, _ => Err
      end
  | Load i e ok =>
      let v := srv s (home i) in
      match op s i with
      | OSynced =>
          if busy v || negb (is_operation e) then Err
          else let* (r, m, w) := body ok (mem v) (stored (log s) (view v)) e in
               match w with
               | Some w => Ok (set_op (set_srv s (home i) (with_busy (with_mem v m) true)) i (OStore e r w))
               | None => Ok (answer_op (set_op (set_srv s (home i) (with_mem v m)) i OEnd) (mkAnswered i e ok r))
               end
      | _ => Err
      end
  | Store i o =>
      let v := srv s (home i) in
      match op s i with
      | OStore e r w =>
          match o with
          | Stored =>
              let l := log s ++ [w] in
              Ok (answer_op (set_op (set_srv (set_log s l) (home i) (with_busy (sees v (List.length l)) false)) i OEnd) (mkAnswered i e true r))
          | Unstored => Ok (answer_op (set_op (set_srv s (home i) (with_busy v false)) i OEnd) (mkAnswered i e true (-1)%Z))
          | Late => Ok (answer_op (set_op (set_srv (set_late s (late s ++ [w])) (home i) (with_busy v false)) i OEnd) (mkAnswered i e true (-1)%Z))
          end
      | _ => Err
      end
  | Land n =>
      match nth_error (late s) n with
      | Some w => Ok (set_late (set_log s (log s ++ [w])) (firstn n (late s) ++ skipn (S n) (late s)))
      | None => Err
      end
  end.
Fixpoint irun (s : ist) (es : list ievent) : res ist :=
  match es with
  | [] => Ok s
  | e :: t => let* s' := istep s e in irun s' t
  end.
End Indexes.
(** Every server has just started on an empty map: zookeeper_coordinator.cc:246-291, cluster.cc:198-253 *)
Definition ist0 : ist := mkIst st0 [] (fun _ => mkServer (fresh_index None) 0 true [] None false) (fun _ => OIdle) [] [].
