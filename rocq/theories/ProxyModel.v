(** Model of the delivery of forwarded requests: src/lib/queue_proxy_write.cc:75-126 and
    queue_proxy_read.cc:65-117 ([run]), op_proxy_write.cc:58-64 ([run_client]), and the
    connection to the other node as they use it (connection_tcp.cc:134-171, 180-300,
    342-414, 470-550, 617-631).

    The other node serves the requests of a connection in order and answers each but the
    silent ones; requests and answers are units here (their bytes are the subject of
    TextModel and StreamModel).  One simplification follows from that: an answer that
    run_client refuses is read completely. *)
From Coq Require Import List Bool Arith.
Import ListNotations.

Section Proxy.
  (** The other node: its state, requests, answers, and what a request does. *)
  Variables (St Q A : Type) (exec : St -> Q -> St * A).
  (** Requests with noreply, e.g. op_set.cc:214-217. *)
  Variable silent : Q -> bool.
  (** run_client takes this as an answer to that (op.cc:155-176, op_get.cc:214-262). *)
  Variable accepts : Q -> A -> bool.

  (** The connection with both ends.  [inbox]: requests sent and not yet served, [back]:
      answers not yet read, [log]: all requests served so far, with their answers. *)
  Record link := mkLink { up : bool; inbox : list Q; back : list A; node : St; log : list (Q * A) }.
  (** The other node serves its next request; connections are served to their end. *)
  Definition serve1 (l : link) : link :=
    match inbox l with
    | [] => l
    | q :: qs =>
        let (s, a) := exec (node l) q in
        mkLink (up l) qs (if silent q then back l else back l ++ [a]) s (log l ++ [(q, a)])
    end.
  Fixpoint serves (n : nat) (l : link) : link := match n with O => l | S n => serves n (serve1 l) end.
  (** connection_tcp.cc:617-631 [close], or the other end is closed: what was on its way is lost. *)
  Definition closed (l : link) : link := mkLink false [] [] (node l) (log l).
  (** connection_tcp.cc:134-171 [open]; nothing happens if it fails. *)
  Definition reopen (ok : bool) (l : link) : link := mkLink ok [] [] (node l) (log l).

  (** What happens to one attempt.  The other node serves [n] requests while it lasts. *)
  Inductive fate :=
  | Refused (n : nat)   (* write fails; the connection is closed (518-527) *)
  | Broken (n : nat)    (* the request is sent, then the connection breaks (258-278, 301-308) *)
  | Wait (n : nat)      (* the request is sent and an answer arrives, if there is one; else the read times out *)
  | Late (n : nat).     (* the request is sent and nothing arrives before the read times out (246-252): the connection stays open *)

  Definition send (q : Q) (l : link) : link := mkLink (up l) (inbox l ++ [q]) (back l) (node l) (log l).
  (** op_proxy_write.cc:58-64 [run_client]; the answer, or [None] for -1. *)
  Definition attempt (q : Q) (f : fate) (l : link) : link * option (option A) :=
    if negb (up l) then (l, None) else
    match f with
    | Refused n => (closed (serves n l), None)
    | Broken n => if silent q then (closed (serves n (send q l)), Some None) else (closed (serves n (send q l)), None)
    | Wait n =>
        let l1 := serves n (send q l) in
        if silent q then (l1, Some None) else
        match back l1 with
        | [] => (l1, None)
        | a :: b => (mkLink (up l1) (inbox l1) b (node l1) (log l1), if accepts q a then Some (Some a) else None)
        end
    | Late n => let l1 := serves n (send q l) in (l1, if silent q then Some None else None)
    end.
  (** queue_proxy_write.cc:88-106: each failed attempt but the last is followed by
      another one, on a new connection if the old one is closed.  The bools say whether
      opening it works. *)
  Fixpoint tries (q : Q) (fs : list (fate * bool)) (l : link) : link * option (option A) :=
    match fs with
    | [] => (l, None)
    | (f, ok) :: fs =>
        match attempt q f l with
        | (l1, Some a) => (l1, Some a)
        | (l1, None) => tries q fs (if up l1 then l1 else reopen ok l1)
        end
    end.
  (** queue_proxy_write.h:59, queue_proxy_read.h:61 max_retry *)
  Definition max_retry : nat := 4.
  Definition deliver (q : Q) (fs : list (fate * bool)) (l : link) : link * option (option A) := tries q (firstn max_retry fs) l.
End Proxy.
Arguments mkLink {St Q A}. Arguments up {St Q A}. Arguments inbox {St Q A}. Arguments back {St Q A}. Arguments node {St Q A}. Arguments log {St Q A}.
