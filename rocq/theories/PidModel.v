(** The file with the number of the process, by which a server sees that another one runs with the same directory.
    app.cc:146-193, flared.cc:296-298, 451, 470-474, flarei.cc:283-285, 381, 388-392.

    Processes are known by their numbers.  Not modelled: what a server has done before it looks at the file (it
    listens on its port and has opened its database, which may fail for other reasons), processes that cannot be
    seen because they are in another container, a file that cannot be removed. *)
From Coq Require Import NArith ZArith List Bool String.
From Verif Require Import Base TextModel.
Import ListNotations.
Local Open Scope N_scope.

(** What is known of the process with a number: there is none; one that is no server with this file; a server before
    line 151, between 164 and 166, between 166 and 172 (the file it has opened, see [file]), running. *)
Inductive stage := Away | Other | Starting | Checked | Opened (inode : N) | Running.
(** [file]: the file under its name, with the number of its inode; [inodes]: inodes made so far. *)
Record st := mkSt { file : option (N * bytes); inodes : N; at_ : N -> stage }.
Definition upd {A} (f : N -> A) (p : N) (x : A) : N -> A := fun q => if q =? p then x else f q.
Definition move (s : st) (p : N) (x : stage) : st := mkSt (file s) (inodes s) (upd (at_ s) p x).
Definition alive (s : st) (p : N) : bool := match at_ s p with Away => false | _ => true end.

(** 154 [ifs >> s]: the first word *)
Definition is_space (c : N) : bool := (c =? 32) || ((9 <=? c) && (c <=? 13)).
Fixpoint skip_space (w : bytes) : bytes := match w with [] => [] | c :: t => if is_space c then skip_space t else w end.
Fixpoint to_space (w : bytes) : bytes := match w with [] => [] | c :: t => if is_space c then [] else c :: to_space t end.
Definition first_word (w : bytes) : bytes := to_space (skip_space w).
(** 155 lexical_cast<pid_t>; a sign is allowed.  [None]: it throws, and nothing catches. *)
Definition pid_of (w : bytes) : option Z :=
  match w with
  | 43 :: 45 :: _ => None
  | 43 :: d => match lex_i32 d with Ok z => Some z | _ => None end
  | _ => match lex_i32 w with Ok z => Some z | _ => None end
  end.
(** 156 [kill(pid, 0)], false with ESRCH.  0 is the own group, a negative number names groups: [groups] says
    whether there is a process in one. *)
Definition exists_ (groups : Z -> bool) (s : st) (z : Z) : bool :=
  if (0 <? z)%Z then alive s (Z.to_N z) else if (z =? 0)%Z then true else groups z.
(** 172 *)
Definition pid_text (p : N) : bytes := dec p ++ [10].

Inductive event :=
| Spawn (p : N)                (* a server is started, its process has the number [p] *)
| Check (p : N)                (* 151-164 *)
| Open (p : N) (ok : bool)     (* 166-171; the file is made, or emptied *)
| Write (p : N) (whole : bool) (* 172-173; nothing looks whether it could be written *)
| Stop (p : N)                 (* shutdown: 184-189, and the process ends *)
| Kill (p : N)                 (* the server ends without shutdown, by a signal or a failure *)
| Others (p : N) (on : bool).  (* another program gets the number, or ends *)

Definition step (groups : Z -> bool) (s : st) (e : event) : option st :=
  match e with
  | Spawn p => match at_ s p with Away => if (1 <=? p) && (p <? 2147483648) then Some (move s p Starting) else None | _ => None end
  | Check p =>
      match at_ s p with
      | Starting =>
          match file s with
          | None => Some (move s p Checked)
          | Some (_, w) =>
              match pid_of (first_word w) with
              | None => Some (move s p Away)             (* terminate *)
              | Some z => Some (move s p (if exists_ groups s z then Away else Checked))
              end
          end
      | _ => None
      end
  | Open p ok =>
      match at_ s p with
      | Checked =>
          if ok then
            match file s with
            | Some (i, _) => Some (mkSt (Some (i, [])) (inodes s) (upd (at_ s) p (Opened i)))
            | None => Some (mkSt (Some (inodes s, [])) (inodes s + 1) (upd (at_ s) p (Opened (inodes s))))
            end
          else Some (move s p Away)
      | _ => None
      end
  | Write p whole =>
      match at_ s p with
      | Opened i =>
          let f := match file s with
                   | Some (j, old) => if (i =? j) && whole then Some (j, pid_text p ++ skipn (List.length (pid_text p)) old) else file s
                   | None => None
                   end in
          Some (mkSt f (inodes s) (upd (at_ s) p Running))
      | _ => None
      end
  | Stop p => match at_ s p with Running => Some (mkSt None (inodes s) (upd (at_ s) p Away)) | _ => None end
  | Kill p => match at_ s p with Away | Other => None | _ => Some (move s p Away) end
  | Others p on =>
      match at_ s p with
      | Away => if on then Some (move s p Other) else None
      | Other => if on then None else Some (move s p Away)
      | _ => None
      end
  end.
Fixpoint steps (groups : Z -> bool) (s : st) (es : list event) : option st :=
  match es with
  | [] => Some s
  | e :: es => match step groups s e with Some s' => steps groups s' es | None => None end
  end.
