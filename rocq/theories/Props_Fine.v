(** C79: a database that does not fail. *)
From stdpp Require Import gmap.
From Coq Require Import String.
From Verif Require Import Base StorageModel TextModel SessionModel ServerModel FailModel FailSpec FailProofs Props_Fail.
Local Open Scope N_scope.

Notation yes := (writes fine).
Lemma remove_fine s now e b : remove_f yes s now e b = (remove s now e b, false).
Proof. destruct (remove_cases yes s now e b) as [H|[_ H]]; [exact H|discriminate H]. Qed.
Lemma get_fine s now e b : get_f yes s now e b = (get s now e b, false).
Proof.
  unfold get_f, get. destruct (db s !! e_key e); [|reflexivity]. destruct (unser_header _ e) as [e1 fits]. destruct (negb fits); [reflexivity|]. destruct (negb _); [reflexivity|].
  destruct (_ && _); [|reflexivity]. now rewrite remove_fine.
Qed.
Lemma current_fine s now k b : current_entry_f yes s now k b = (current_entry s now k b, false).
Proof.
  unfold current_entry_f, current_entry. destruct (has b _); [rewrite get_fine; cbv zeta|destruct (get_header _ _ _); reflexivity].
  match goal with |- context [if ?c then (_, _, _, _) else _] => destruct c end; reflexivity.
Qed.
Lemma put_fine s e raw r done : put_f yes s e raw false r done = match db_put s (e_key e) raw with Some s2 => Some (mkOut s2 0 (Some r) done, false) | None => None end.
Proof. reflexivity. Qed.
Lemma set_fine s now e b : set_f yes s now e b = as_usual (set s now e b).
Proof.
  unfold set_f, set. rewrite current_fine. destruct (current_entry s now (e_key e) b) as [[s1 cur] ex]. cbv zeta.
  destruct (has b behavior_add && _); [reflexivity|]. destruct (has b behavior_replace && _); [reflexivity|]. destruct (has b behavior_touch && _); [reflexivity|].
  destruct (next_version _ cur e b); [reflexivity|]. destruct (has b (N.lor behavior_append behavior_prepend)).
  - destruct (negb _); [reflexivity|]. destruct (memcpy _ _); [|reflexivity]. destruct (memcpy _ _); [|reflexivity]. rewrite put_fine. destruct (db_put _ _ _); [|reflexivity]. destruct (has b behavior_touch); reflexivity.
  - destruct (has b behavior_touch); (destruct (memcpy _ _); [|reflexivity]); rewrite put_fine; destruct (db_put _ _ _); reflexivity.
Qed.
Lemma incr_fine s now e v i b : incr_f yes s now e v i b = as_usual (incr s now e v i b).
Proof.
  unfold incr_f, incr. destruct (db s !! e_key e); [|reflexivity]. destruct (unser_header _ _) as [c0 fits]. destruct (negb fits); [reflexivity|]. cbv zeta. destruct (negb _); [reflexivity|].
  destruct (_ && _); [now rewrite remove_fine|]. rewrite put_fine. destruct (db_put _ _ _); reflexivity.
Qed.
Lemma run_get_fine now t keys : forall s, run_get_f yes now s t keys = (run_get now s t keys, false).
Proof.
  induction keys as [|k keys IH]; intros s; [reflexivity|]. cbn [run_get_f run_get]. rewrite get_fine. rewrite IH. destruct (run_get now _ t keys). reflexivity.
Qed.

(** As long as the database does what it is asked, every request is served as by a node without failures (ServerModel), and the status stays ok. *)
Theorem c79_fine now n r : n_healthy n = true ->
  serve fine now n r = match run_request now (n_store n) r with Ok p => Ok (p, mkNode (p_store p) true) | Err => Err | Undef => Undef end.
Proof.
  destruct n as [s h]. cbn [n_healthy n_store]. intros ->.
  assert (T : forall x, told (mkNode s true) x false = match x with Ok p => Ok (p, mkNode (p_store p) true) | Err => Err | Undef => Undef end) by (intros [| |p]; reflexivity).
  assert (W : forall x f, with_outcome (mkNode s true) (as_usual x) f = match match x with Some o => f o | None => Undef end with Ok p => Ok (p, mkNode (p_store p) true) | Err => Err | Undef => Undef end).
  { intros [o|] f; [|reflexivity]. cbn [as_usual with_outcome]. apply T. }
  destruct r as [ident e|e|ident e|ident e v|ident keys|w|nr|nr|w]; cbn [serve run_request n_store].
  - rewrite set_fine. apply W.
  - rewrite remove_fine. apply T.
  - rewrite set_fine. apply W.
  - rewrite incr_fine. apply W.
  - rewrite run_get_fine. destruct (run_get now s _ keys). apply T.
  - cbn [n_healthy negb]. rewrite andb_false_r. apply T.
  - cbn [empties fine]. apply T.
  - apply T.
  - reflexivity.
Qed.
Print Assumptions c79_fine.
(** So a ping is answered with an error only if something failed before. *)
Theorem c79_no_false_alarm l : forall n n' out, n_healthy n = true -> Forall (fun x => fst (fst x) = fine) l -> serve_all n l = Ok (n', out) -> n_healthy n' = true.
Proof.
  induction l as [|[[m now] r] l IH]; intros n n' out H F E; cbn [serve_all] in E; [now injection E as <- _|].
  pose proof (List.Forall_inv F) as F1. cbn [fst] in F1. subst m. rewrite (c79_fine now n r H) in E. destruct (run_request now (n_store n) r) as [| |p]; cbn [bind] in E; try discriminate E.
  destruct (serve_all _ l) as [| |[n2 o2]] eqn:A; cbn [bind] in E; try discriminate E. injection E as <- _. eapply IH; [|exact (List.Forall_inv_tail F)|exact A]. reflexivity.
Qed.
Print Assumptions c79_no_false_alarm.
Example c79_fine_met : match serve_all (mkNode stored_a true) [(fine, 100%Z, set_a 0); (fine, 101%Z, RFlush false); (fine, 102%Z, RVerbosity false); (fine, 103%Z, RGet (s2b "get") [key_a]); (fine, 104%Z, RPlain (s2b "ping"))] with
  | Ok (n, out) => out = [s2b "STORED" ++ crlf; s2b "OK" ++ crlf; s2b "OK" ++ crlf; s2b "END" ++ crlf; s2b "OK" ++ crlf] | _ => False end.
Proof. vm_compute. reflexivity. Qed.
