(** Model of the state file of the index server: src/lib/file_coordinator.cc:78-148, with
    cluster.cc:1741-1827 ([_save], [_load]) on top of it.

    The process may be killed between any two system calls; the file system does each
    of them completely or not at all.  (A failure of the whole machine is in
    PowerModel.) *)
From Coq Require Import List Bool NArith ZArith.
From Verif Require Import Base StorageModel TextModel ClusterModel.
Import ListNotations.

(** flare.xml and flare.xml.tmp; [None]: there is no such file. *)
Record fs := mkFs { main : option bytes; tmp : option bytes }.
(** What the system calls do: the temporary file can be opened; this many bytes get written
    (fewer than all if the disk is full: nobody looks, 94-95); unlink works or
    there is nothing to unlink; rename works. *)
Record outcome := mkOutcome { o_open : bool; o_written : nat; o_unlink : bool; o_rename : bool }.
Definition all_well (x : bytes) : outcome := mkOutcome true (length x) true true.

(** file_coordinator.cc:78-113 [_save]: the states of the file system it goes
    through, the last of them, and what it returns. *)
Definition save_file (x : bytes) (o : outcome) (d : fs) : list fs * fs * Z :=
  if negb (o_open o) then ([d], d, (-1)%Z) else
  let part n := mkFs (main d) (Some (firstn n x)) in
  let written := map part (seq 0 (S (o_written o))) in
  let d2 := part (o_written o) in
  if negb (o_unlink o) then (d :: written, d2, (-1)%Z) else
  let d3 := mkFs None (tmp d2) in
  if negb (o_rename o) then (d :: written ++ [d3], d3, (-1)%Z) else
  let d4 := mkFs (tmp d2) None in
  (d :: written ++ [d3; d4], d4, 0%Z).

(** file_coordinator.cc:118-148 [_load]: a missing file is an empty string. *)
Definition load_file (d : fs) : bytes := match main d with Some x => x | None => [] end.

Section Xml.
  (** boost::archive::xml_oarchive and xml_iarchive (cluster.cc:1751-1757, 1789-1806). *)
  Variables (encode : saved -> bytes) (decode : bytes -> option saved).
  (** cluster.cc:1786-1807: nothing is read from an empty string; [None]: _load fails. *)
  Definition restore (d : fs) : option (option saved) :=
    match load_file d with [] => Some None | x => option_map Some (decode x) end.
  (** The index server is started on a file system. *)
  Definition start_on (d : fs) : res (Z * index) :=
    match restore d with Some v => restart io_ok (fresh_index v) | None => Err end.
  (** cluster.cc:1741-1768 [_save] on the file system: what is written is the state
      with the next version. *)
  Definition to_save (s : index) : saved := mkSaved (u64 (i_version s + 1)) (i_map s) (i_thread s).
  Definition save_index (s : index) (o : outcome) (d : fs) : list fs * fs * Z := save_file (encode (to_save s)) o d.
  (** The file holds this state. *)
  Definition holds (d : fs) (v : option saved) : Prop := main d = option_map encode v.
End Xml.
