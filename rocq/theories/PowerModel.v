(** Model of the state file of the index server when the whole machine fails:
    src/lib/file_coordinator.cc:78-113 [_save], as the system calls it does, on a file system that
    keeps changes in memory.  No call of the server makes the file system write them out
    (there is no fsync or fdatasync under src/lib), so that happens only when the
    kernel does it by itself.

    Simplification: names are changed on the disk in the order of the calls (a journal), the contents of a
    file reach the disk from the front, and what is not there yet is missing rather than garbage. *)
From Coq Require Import List Bool NArith ZArith.
From Verif Require Import Base FilesModel.
Import ListNotations.

(** A file: what a reader sees, and whether all of that is on the disk. *)
Record pfile := mkP { data : bytes; safe : bool }.
(** flare.xml and flare.xml.tmp. *)
Record disk := mkDisk { d_main : option pfile; d_tmp : option pfile }.
(** What the processes on the running machine see. *)
Definition seen (d : disk) : fs := mkFs (option_map data (d_main d)) (option_map data (d_tmp d)).

(** The system calls of file_coordinator.cc:84-106: the ofstream is opened and truncates the temporary file (84), writes
    a byte (91, 92), unlink (94), rename (99). *)
Inductive call := COpen | CPut (b : N) | CUnlink | CRename.
Definition do_call (d : disk) (c : call) : disk :=
  match c with
  | COpen => mkDisk (d_main d) (Some (mkP [] false))
  | CPut b => match d_tmp d with Some f => mkDisk (d_main d) (Some (mkP (data f ++ [b]) false)) | None => d end
  | CUnlink => mkDisk None (d_tmp d)
  | CRename => match d_tmp d with Some f => mkDisk (Some f) None | None => d end
  end.
(** file_coordinator.cc:78-113: the calls that work while [x] is saved. *)
Definition save_calls (x : bytes) (o : outcome) : list call :=
  if negb (o_open o) then [] else
  COpen :: map CPut (firstn (o_written o) x) ++
  (if negb (o_unlink o) then [] else CUnlink :: (if negb (o_rename o) then [] else [CRename])).

(** The journal: the states since the kernel last wrote everything out, newest first; the oldest is on the disk. *)
Definition journal := list disk.
Definition now (j : journal) : disk := hd (mkDisk None None) j.
Definition written_out (d : disk) : disk :=
  let f := option_map (fun p => mkP (data p) true) in mkDisk (f (d_main d)) (f (d_tmp d)).
Fixpoint calls (j : journal) (cs : list call) : journal :=
  match cs with [] => j | c :: cs => calls (do_call (now j) c :: j) cs end.

(** What happens to the machine: a state is saved by a server that is killed after [stop] of its calls (or
    not, if there are not that many); the kernel writes everything out. *)
Inductive mevent := ESaving (x : bytes) (o : outcome) (stop : nat) | EWriteOut.
Definition machine_step (j : journal) (e : mevent) : journal :=
  match e with
  | ESaving x o stop => calls j (firstn stop (save_calls x o))
  | EWriteOut => [written_out (now j)]
  end.
Definition machine (d : disk) (h : list mevent) : journal := fold_left machine_step h [written_out d].

(** The machine fails: what is found when it is up again. *)
Definition cut (f : option pfile) (x : option bytes) : Prop :=
  match f, x with
  | None, None => True
  | Some f, Some x => if safe f then x = data f else exists n, x = firstn n (data f)
  | _, _ => False
  end.
Definition failure (j : journal) (c : fs) : Prop := exists d, In d j /\ cut (d_main d) (main c) /\ cut (d_tmp d) (tmp c).
