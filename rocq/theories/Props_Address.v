(** C77: the index server keeps its map where it was told to. *)
From Coq Require Import NArith ZArith List Bool String Lia.
From Verif Require Import Base BaseLemmas AddressModel AddressSpec AddressProofs AddressProofs2.
Import ListNotations.
Local Open Scope N_scope.

(** ** Addresses *)
(** Whatever address is written, with a query when it has a fragment, is read as it was written; a missing part is
    empty, a missing port 0. *)
Theorem c77_read a : good a -> (a_fragment a <> None -> a_query a <> None) ->
  u_scheme (uri_of (text a)) = a_scheme a /\ u_authority (uri_of (text a)) = server_text (a_user a) (a_host a) (a_port a)
  /\ u_user (uri_of (text a)) = opt (a_user a) /\ u_host (uri_of (text a)) = a_host a
  /\ (forall n, a_port a = Some (dec n) -> n < 2147483648 -> u_port (uri_of (text a)) = Z.of_N n)
  /\ (a_port a = None -> u_port (uri_of (text a)) = 0%Z)
  /\ u_path (uri_of (text a)) = a_path a /\ u_query (uri_of (text a)) = opt (a_query a)
  /\ u_fragment (uri_of (text a)) = opt (a_fragment a).
Proof.
  intros G F. rewrite uri_parsed, (parsed_back a G F). repeat split.
  - intros n E H. cbn. rewrite E. apply port_dec. exact H.
  - intro E. cbn. rewrite E. reflexivity.
Qed.
Print Assumptions c77_read.
Definition full : address :=
  mkAddress (s2b "file") (Some (s2b "me")) (s2b "host") (Some (dec 80)) (s2b "/var/flare") (Some (s2b "a=b")) (Some (s2b "x#y")).
Example c77_full : good full /\ text full = s2b "file://me@host:80/var/flare?a=b#x#y".
Proof.
  split; [|reflexivity]. split; [discriminate|]. split.
  { intros x I J. cbn in I, J. destruct I as [<-|[]]. repeat destruct J as [J|J]; try discriminate; contradiction. }
  split; [split; [|split]|].
  - intros x I J. cbn in I, J. repeat destruct I as [I|I]; try contradiction; subst x; repeat destruct J as [J|J]; try discriminate; contradiction.
  - intros x I J. cbn in I, J. repeat destruct I as [I|I]; try contradiction; subst x; repeat destruct J as [J|J]; try discriminate; contradiction.
  - split; [discriminate|]. repeat constructor.
  - split; [exists (s2b "var/flare"); reflexivity|]. split.
    + intros x I J. cbn in I, J. repeat destruct I as [I|I]; try contradiction; subst x; repeat destruct J as [J|J]; try discriminate; contradiction.
    + intros x I J. cbn in I, J. repeat destruct I as [I|I]; try contradiction; subst x; repeat destruct J as [J|J]; try discriminate; contradiction.
Qed.

(** Nothing else is read: a text that has no such form counts as the empty address. *)
Theorem c77_read_only s :
  (exists a, good a /\ (a_fragment a <> None -> a_query a <> None) /\ s = text a)
  \/ (u_scheme (uri_of s) = [] /\ u_authority (uri_of s) = [] /\ u_user (uri_of s) = [] /\ u_host (uri_of s) = []
      /\ u_port (uri_of s) = 0%Z /\ u_path (uri_of s) = [] /\ u_query (uri_of s) = [] /\ u_fragment (uri_of s) = []).
Proof.
  destruct (parsed s) as [a|] eqn:E.
  - left. exists a. apply parsed_eq in E. tauto.
  - right. rewrite uri_parsed, E. repeat split.
Qed.
Print Assumptions c77_read_only.
(** and the address of a text is unique *)
Theorem c77_read_unique a b : good a -> good b -> (a_fragment a <> None -> a_query a <> None) ->
  (a_fragment b <> None -> a_query b <> None) -> text a = text b -> a = b.
Proof.
  intros A B FA FB E. pose proof (parsed_back a A FA) as H. rewrite E, (parsed_back b B FB) in H. congruence.
Qed.
Print Assumptions c77_read_unique.
(** A fragment without a query becomes part of the path. *)
Theorem c77_fragment_refuted : exists a, good a /\ a_fragment a = Some (s2b "x") /\ u_fragment (uri_of (text a)) = []
  /\ u_path (uri_of (text a)) = a_path a ++ s2b "#x".
Proof.
  exists (mkAddress (s2b "file") None [] None (s2b "/a") None (Some (s2b "x"))). split; [|vm_compute; auto].
  split; [discriminate|]. split; [intros x I J; cbn in I, J; destruct I as [<-|[]]; repeat destruct J as [J|J]; try discriminate; contradiction|].
  split; [split; [exact Logic.I|split; [intros x I []|exact Logic.I]]|].
  split; [exists (s2b "a"); reflexivity|]. split; [|exact Logic.I].
  intros x I J; cbn in I, J; destruct I as [<-|[]]; repeat destruct J as [J|J]; try discriminate; contradiction.
Qed.
Print Assumptions c77_fragment_refuted.

(** ** Files *)
(** With an address of the scheme file the map is kept in the directory that is the address's path. *)
Theorem c77_file zk setup a dir : good a -> (a_fragment a <> None -> a_query a <> None) -> a_scheme a = s2b "file" ->
  start zk setup (text a) dir = Some (File (a_path a)) /\ state_file (a_path a) = a_path a ++ s2b "/flare.xml".
Proof.
  intros G F S0. split; [|reflexivity].
  assert (E : text a = s2b "file://" ++ server_text (a_user a) (a_host a) (a_port a) ++ rest_text (a_path a) (a_query a) (a_fragment a))
    by (unfold text; rewrite S0; reflexivity).
  assert (E' : start zk setup (text a) dir = create zk setup (text a)) by (rewrite E; reflexivity).
  rewrite E', E, create_file, <- E.
  - rewrite uri_parsed, (parsed_back a G F). reflexivity.
  - destruct G as (_ & _ & _ & (t & P) & _). rewrite P. unfold rest_text. intro N0. apply app_eq_nil in N0. destruct N0 as [_ N0]. discriminate.
Qed.
Print Assumptions c77_file.
Example c77_file_full : start false (fun _ => false) (text full) (s2b "/elsewhere") = Some (File (s2b "/var/flare")).
Proof. vm_compute. reflexivity. Qed.

(** Without index-db the map is kept in data-dir exactly when data-dir is named from the root and has no question mark
    in its name; the index server starts in any case, and what it keeps is always in a directory named from the root,
    or in the root directory itself. *)
Theorem c77_dir zk setup d : d <> [] -> (start zk setup [] d = Some (File d) <-> from_root d /\ plain_dir d).
Proof.
  intro N0. unfold start. rewrite create_file by exact N0. split.
  - intro H0. assert (H : u_path (uri_of (s2b "file://" ++ d)) = d) by congruence. rewrite uri_parsed in H. destruct (parsed (s2b "file://" ++ d)) as [a|] eqn:E.
    + apply parsed_eq in E. destruct E as (_ & (_ & _ & _ & R) & _). cbn in H. rewrite <- H. split; apply R.
    + cbn in H. congruence.
  - intros [R P]. f_equal. f_equal.
    set (a := mkAddress (s2b "file") None [] None d None None).
    assert (G : good a).
    { split; [discriminate|]. split; [intros x I J; cbn in I, J; destruct I as [<-|[]]; repeat destruct J as [J|J]; try discriminate; contradiction|].
      split; [split; [exact Logic.I|split; [intros x I []|exact Logic.I]]|]. split; [exact R|split; [exact P|exact Logic.I]]. }
    assert (E : s2b "file://" ++ d = text a) by (unfold text, rest_text, a; cbn; rewrite app_nil_r; reflexivity).
    rewrite E, uri_parsed, (parsed_back a G); [reflexivity|]. cbn. congruence.
Qed.
Print Assumptions c77_dir.
Theorem c77_dir_always zk setup d : d <> [] ->
  exists p, start zk setup [] d = Some (File p) /\ (p = [] \/ from_root p) /\ plain_dir p.
Proof.
  intro N0. exists (u_path (uri_of (s2b "file://" ++ d))). split; [unfold start; apply create_file; exact N0|].
  rewrite uri_parsed. destruct (parsed (s2b "file://" ++ d)) as [a|] eqn:E.
  - apply parsed_eq in E. destruct E as (_ & (_ & _ & _ & R) & _). cbn [read_as u_path]. split; [right|]; apply R.
  - cbn. split; [auto|]. intros x I [].
Qed.
Print Assumptions c77_dir_always.
Example c77_dir_usual : start false (fun _ => false) [] (s2b "/var/flare") = Some (File (s2b "/var/flare"))
  /\ from_root (s2b "/var/flare") /\ plain_dir (s2b "/var/flare").
Proof.
  split; [vm_compute; reflexivity|]. split; [exists (s2b "var/flare"); reflexivity|].
  intros x I J; cbn in I, J; destruct I as [<-|[]]; repeat destruct J as [J|J]; try discriminate; contradiction.
Qed.
(** Index servers with different directories of that kind use different files, also the temporary ones. *)
Theorem c77_dirs_apart d e : d <> e ->
  state_file d <> state_file e /\ temp_file d <> temp_file e /\ state_file d <> temp_file e.
Proof.
  intro H. unfold temp_file, state_file. repeat split.
  - intro E. apply app_inv_tail in E. contradiction.
  - intro E. do 2 apply app_inv_tail in E. contradiction.
  - intro E. apply (f_equal (@rev N)) in E. rewrite !rev_app_distr in E. cbn in E. discriminate.
Qed.
Print Assumptions c77_dirs_apart.
(** A relative data-dir: the map is kept in another directory, and two index servers with different data
    directories keep theirs in the same file. *)
Theorem c77_relative_refuted :
  start false (fun _ => false) [] (s2b "./data") = Some (File (s2b "/data"))
  /\ start false (fun _ => false) [] (s2b "run/data") = Some (File (s2b "/data"))
  /\ start false (fun _ => false) [] (s2b "data") = Some (File [])
  /\ state_file [] = s2b "/flare.xml".
Proof. vm_compute. auto. Qed.
Print Assumptions c77_relative_refuted.
Theorem c77_question_refuted : start false (fun _ => false) [] (s2b "/var/what?/data") = Some (File (s2b "/var/what")).
Proof. vm_compute. reflexivity. Qed.
Print Assumptions c77_question_refuted.

(** An address of the scheme file that cannot be read is not refused: the map is kept in the root directory. *)
Theorem c77_unreadable zk setup t dir : t <> [] ->
  (forall a, good a -> (a_fragment a <> None -> a_query a <> None) -> s2b "file://" ++ t <> text a) ->
  start zk setup (s2b "file://" ++ t) dir = Some (File []) /\ state_file [] = s2b "/flare.xml".
Proof.
  intros N0 H. split; [|reflexivity]. change (start zk setup (s2b "file://" ++ t) dir) with (create zk setup (s2b "file://" ++ t)).
  rewrite create_file by exact N0. rewrite uri_parsed. destruct (parsed (s2b "file://" ++ t)) as [a|] eqn:E; [|reflexivity].
  apply parsed_eq in E. destruct E as (E & G & F). destruct (H a G F E).
Qed.
Print Assumptions c77_unreadable.
Theorem c77_unreadable_refuted :
  start false (fun _ => false) (s2b "file://[::1]/var/flare") (s2b "/data") = Some (File [])
  /\ start false (fun _ => false) (s2b "file://host:port/var/flare") (s2b "/data") = Some (File []).
Proof. vm_compute. auto. Qed.
Print Assumptions c77_unreadable_refuted.

(** The index server starts with an address only if it begins with file://, or with zookeeper:// when it is built with
    ZooKeeper and the servers accept it; with any other it does not start. *)
Theorem c77_refused zk setup s dir : s <> [] ->
  (start zk setup s dir <> None <->
   (exists t, t <> [] /\ s = s2b "file://" ++ t)
   \/ (zk = true /\ setup (connstring (ext_of s)) = true /\ exists t, t <> [] /\ s = s2b "zookeeper://" ++ t)).
Proof.
  intro N0. replace (start zk setup s dir) with (create zk setup s) by (destruct s; [congruence|reflexivity]). split.
  - destruct (create zk setup s) as [c|] eqn:E; [|congruence]. intros _. apply create_some in E.
    destruct E as [(t & T & E & _)|(Z & t & T & E & U & _)]; [left; eauto|right; eauto].
  - intros [(t & T & ->)|(-> & U & t & T & ->)].
    + rewrite create_file by exact T. discriminate.
    + rewrite create_zk by assumption. discriminate.
Qed.
Print Assumptions c77_refused.
Example c77_refused_other : start true (fun _ => true) (s2b "http://host/index") (s2b "/data") = None
  /\ start true (fun _ => true) (s2b "/var/flare") (s2b "/data") = None
  /\ start false (fun _ => true) (s2b "zookeeper://host:2181/index") (s2b "/data") = None.
Proof. vm_compute. auto. Qed.

(** ** ZooKeeper *)
(** One to five servers, each with its port: ZooKeeper's library is given all of them in order, and the path. *)
Theorem c77_zookeeper_partial setup x l p q f dir : Forall good_zk (x :: l) -> (List.length l <= 4)%nat ->
  good_rest p q -> (f <> None -> q <> None) -> setup (comma_list (map named (x :: l)) ++ p) = true ->
  start true setup (zk_text (x :: l) (rest_text p q f)) dir = Some (Zookeeper (comma_list (map named (x :: l)) ++ p)).
Proof.
  intros G L R F U. change (start true setup (zk_text (x :: l) (rest_text p q f)) dir) with (create true setup (zk_text (x :: l) (rest_text p q f))).
  pose proof (zk_read x l p q f G L R F) as E. rewrite <- E in U |- *. apply create_zk; [|exact U].
  destruct R as ((t & ->) & _). unfold rest_text. intro N0. apply app_eq_nil in N0. destruct N0 as [_ N0]. discriminate.
Qed.
Print Assumptions c77_zookeeper_partial.
(** All parts are read as they were written. *)
Theorem c77_zookeeper_parts x l p q f : Forall good_zk (x :: l) -> (List.length l <= 4)%nat ->
  good_rest p q -> (f <> None -> q <> None) ->
  ext_of (zk_text (x :: l) (rest_text p q f))
  = mkExt (s2b "zookeeper") (map (fun y => (opt (s_user y), s_host y, Z.of_N (s_port y))) (x :: l)) p.
Proof. exact (zk_parts x l p q f). Qed.
Print Assumptions c77_zookeeper_parts.
Definition three : list server :=
  [mkServer None (s2b "a.net") 2181; mkServer (Some (s2b "me")) (s2b "b.net") 2182; mkServer None (s2b "c.net") 2183].
Example c77_three : Forall good_zk three
  /\ start true (fun _ => true) (zk_text three (s2b "/flare/index")) (s2b "/data")
     = Some (Zookeeper (s2b "a.net:2181,b.net:2182,c.net:2183/flare/index")).
Proof.
  split; [|vm_compute; reflexivity].
  repeat (apply Forall_cons || apply Forall_nil); (split; [|split; [|reflexivity]]);
    first [exact Logic.I | intros x I J; cbn in I, J; repeat destruct I as [I|I]; try contradiction; subst x; repeat destruct J as [J|J]; try discriminate; contradiction].
Qed.
(** With more than five all are lost, and the path with them. *)
Theorem c77_zookeeper_many setup x l p q f dir : Forall good_zk (x :: l) -> (4 < List.length l)%nat ->
  good_rest p q -> start true setup (zk_text (x :: l) (rest_text p q f)) dir
  = if setup (s2b ":0") then Some (Zookeeper (s2b ":0")) else None.
Proof.
  intros G L R. change (start true setup (zk_text (x :: l) (rest_text p q f)) dir) with (create true setup (zk_text (x :: l) (rest_text p q f))).
  pose proof (zk_many x l p q f G L R) as E. rewrite <- E.
  destruct (setup (connstring (ext_of (zk_text (x :: l) (rest_text p q f))))) eqn:U.
  - apply create_zk; [|exact U]. destruct R as ((t & ->) & _). unfold rest_text. intro N0. apply app_eq_nil in N0. destruct N0 as [_ N0]. discriminate.
  - destruct (create true setup (zk_text (x :: l) (rest_text p q f))) as [c|] eqn:C; [|reflexivity]. apply create_some in C.
    destruct C as [(t & T & C & _)|(_ & t & T & C & U' & _)]; [discriminate|congruence].
Qed.
Print Assumptions c77_zookeeper_many.
Theorem c77_zookeeper_refuted :
  start true (fun _ => true) (s2b "zookeeper://a:1,b:2,c:3,d:4,e:5,f:6/flare") (s2b "/data") = Some (Zookeeper (s2b ":0"))
  /\ start true (fun _ => true) (s2b "zookeeper://a,b:2/flare") (s2b "/data") = Some (Zookeeper (s2b "a:0,b:2/flare"))
  /\ start true (fun _ => true) (s2b "zookeeper://a:2147483648/flare") (s2b "/data") = Some (Zookeeper (s2b "a:0/flare"))
  /\ start true (fun _ => true) (s2b "zookeeper://[::1]:2181,b:2/flare") (s2b "/data") = Some (Zookeeper (s2b ":0,b:2/flare")).
Proof. vm_compute. auto. Qed.
Print Assumptions c77_zookeeper_refuted.
