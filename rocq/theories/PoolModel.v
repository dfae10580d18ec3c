(** Model of the thread pools: src/lib/thread_pool.cc:62-181 ([get], [get_active],
    [clean]), thread.cc:180-191, 307-323 ([setup], [clean_internal]), util.h:70-119
    (AtomicCounter) and op_kill.cc:96-113.

    A process has two pools that share a counter (flared.cc:189, flarei.cc:248-250).  A step is
    a section under one of the locks, or one access to the counter.  Thread objects are
    numbers.  Left out: pthread_create fails ([get] then returns without registering the
    thread) and [shutdown] of the whole pool. *)
From Coq Require Import List Bool NArith ZArith.
Import ListNotations.
Local Open Scope N_scope.

(** [_global_map] flattened: (type, id, thread); [_pool], its top first; [_max_pool_size];
    the type and thread of the call of [get] that holds [_mutex_global_map]. *)
Record pool := mkPool { actives : list (Z * N * N); stack : list N; limit : N; registering : option (Z * N) }.
Inductive which := Req | Other.
Definition which_eqb (a b : which) : bool := match a, b with Req, Req | Other, Other => true | _, _ => false end.
(** [counter]: _index; [pools]; [fresh]: all thread objects so far are below; [got]: calls of
    get between taking a thread and locking the map; [cleaning]: calls of clean
    between the two sections; [found]: kill requests between get_active and shutdown;
    [killed]: those that are through, with the id their thread had then. *)
Record st := mkSt {
  counter : N; pools : which -> pool; fresh : N;
  got : list (which * Z * N); cleaning : list (which * N);
  found : list (N * N); killed : list (N * N) }.
Definition st0 (limits : which -> N) : st := mkSt 1 (fun w => mkPool [] [] (limits w) None) 0 [] [] [] [].

Definition set_pool (s : st) (w : which) (p : pool) : which -> pool := fun v => if which_eqb v w then p else pools s v.
Definition id_of (e : Z * N * N) : N := snd (fst e).
Definition thread_of (e : Z * N * N) : N := snd e.
Definition ids (p : pool) : list N := map id_of (actives p).
Definition threads (p : pool) : list N := map thread_of (actives p).
(** thread_pool.cc:116-130 [get_active]: ids are unique, so the order of the types does not matter. *)
Definition get_active (p : pool) (id : N) : option N := option_map thread_of (find (fun e => id_of e =? id) (actives p)).
(** op_kill.cc:101-103 *)
Definition lookup (s : st) (id : N) : option N :=
  match get_active (pools s Req) id with Some t => Some t | None => get_active (pools s Other) id end.
(** The [_id] of a thread object, 0 unless it is registered (thread.cc:311). *)
Definition current_id (s : st) (t : N) : N :=
  match find (fun e => thread_of e =? t) (actives (pools s Req) ++ actives (pools s Other)) with Some e => id_of e | None => 0 end.

Inductive event :=
| Take (w : which) (ty : Z)          (* thread_pool.cc:65-81 *)
| Lock (w : which) (ty : Z) (t : N)  (* 84 *)
| Draw (w : which)                   (* 85-107, one round of the loop *)
| Erase (w : which) (t : N)          (* 150-167 *)
| Push (w : which) (t : N)           (* 169-178 *)
| Limit (w : which) (n : N)          (* thread_pool.h:90 *)
| KillFind (id : N)                  (* op_kill.cc:100-108 *)
| KillStop (id t : N).               (* op_kill.cc:110-111 *)

Definition got_eqb (a b : which * Z * N) : bool :=
  which_eqb (fst (fst a)) (fst (fst b)) && Z.eqb (snd (fst a)) (snd (fst b)) && (snd a =? snd b).
Definition cleaning_eqb (a b : which * N) : bool := which_eqb (fst a) (fst b) && (snd a =? snd b).
Definition found_eqb (a b : N * N) : bool := (fst a =? fst b) && (snd a =? snd b).
(** One occurrence less. *)
Fixpoint remove1 {A} (eqb : A -> A -> bool) (x : A) (l : list A) : list A :=
  match l with [] => [] | y :: l' => if eqb x y then l' else y :: remove1 eqb x l' end.

(** Next state; [None]: not possible now. *)
Definition step (s : st) (e : event) : option st :=
  match e with
  | Take w ty =>
      let p := pools s w in
      Some match stack p with
      | t :: r => mkSt (counter s) (set_pool s w (mkPool (actives p) r (limit p) (registering p))) (fresh s) ((w, ty, t) :: got s) (cleaning s) (found s) (killed s)
      | [] => mkSt (counter s) (pools s) (fresh s + 1) ((w, ty, fresh s) :: got s) (cleaning s) (found s) (killed s)
      end
  | Lock w ty t =>
      let p := pools s w in
      match registering p with
      | Some _ => None
      | None =>
          if existsb (got_eqb (w, ty, t)) (got s)
          then Some (mkSt (counter s) (set_pool s w (mkPool (actives p) (stack p) (limit p) (Some (ty, t)))) (fresh s) (remove1 got_eqb (w, ty, t) (got s)) (cleaning s) (found s) (killed s))
          else None
      end
  | Draw w =>
      let p := pools s w in
      match registering p with
      | None => None
      | Some (ty, t) =>
          let id := counter s mod 2 ^ 32 in
          let c := (counter s + 1) mod 2 ^ 64 in
          if (id =? 0) || existsb (N.eqb id) (ids p)
          then Some (mkSt c (pools s) (fresh s) (got s) (cleaning s) (found s) (killed s))
          else Some (mkSt c (set_pool s w (mkPool ((ty, id, t) :: actives p) (stack p) (limit p) None)) (fresh s) (got s) (cleaning s) (found s) (killed s))
      end
  | Erase w t =>
      let p := pools s w in
      match registering p with
      | Some _ => None
      | None =>
          match find (fun e => thread_of e =? t) (actives p) with
          | None => None
          | Some (ty, id, _) =>
              Some (mkSt (counter s) (set_pool s w (mkPool (filter (fun e => negb (Z.eqb (fst (fst e)) ty && (id_of e =? id))) (actives p)) (stack p) (limit p) None))
                     (fresh s) (got s) ((w, t) :: cleaning s) (found s) (killed s))
          end
      end
  | Push w t =>
      let p := pools s w in
      if existsb (cleaning_eqb (w, t)) (cleaning s)
      then Some (mkSt (counter s) (set_pool s w (mkPool (actives p) (if N.of_nat (length (stack p)) <? limit p then t :: stack p else stack p) (limit p) (registering p)))
                   (fresh s) (got s) (remove1 cleaning_eqb (w, t) (cleaning s)) (found s) (killed s))
      else None
  | Limit w n =>
      let p := pools s w in
      Some (mkSt (counter s) (set_pool s w (mkPool (actives p) (stack p) n (registering p))) (fresh s) (got s) (cleaning s) (found s) (killed s))
  | KillFind id =>
      match lookup s id with
      | Some t => Some (mkSt (counter s) (pools s) (fresh s) (got s) (cleaning s) ((id, t) :: found s) (killed s))
      | None => Some s
      end
  | KillStop id t =>
      if existsb (found_eqb (id, t)) (found s)
      then Some (mkSt (counter s) (pools s) (fresh s) (got s) (cleaning s) (remove1 found_eqb (id, t) (found s)) ((id, current_id s t) :: killed s))
      else None
  end.
Fixpoint steps (s : st) (es : list event) : option st :=
  match es with [] => Some s | e :: es' => match step s e with Some s' => steps s' es' | None => None end end.
