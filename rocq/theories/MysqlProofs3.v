(** The whole way: from the requests of the clients to the rows of the slave. *)
From Coq Require Import String.
From stdpp Require Import gmap.
From Coq Require Import ZArith ZifyBool ZifyNat ZifyN.
From Verif Require Import Base BaseLemmas StorageModel StorageSpec TextModel TextSpec TextProofs SessionModel ServerModel
  MysqlModel MysqlSpec MysqlProofs MysqlProofs2.
Local Open Scope N_scope.
Local Open Scope list_scope.

(** ** What is read is determined. *)
Lemma le_enc_inj k a b : a < 256 ^ N.of_nat k -> b < 256 ^ N.of_nat k -> le_enc k a = le_enc k b -> a = b.
Proof. intros Ha Hb E. rewrite <- (le_dec_enc k a Ha), <- (le_dec_enc k b Hb), E. reflexivity. Qed.
Lemma app_inj_len {A} (a b c d : list A) : length a = length c -> a ++ b = c ++ d -> a = c /\ b = d.
Proof. revert c. induction a as [|x a IH]; intros [|y c] H E; try discriminate; auto. cbn in *. injection E as -> E. destruct (IH c) as [-> ->]; auto. Qed.
Lemma app_inj_blen (a b c d : bytes) : blen a = blen c -> a ++ b = c ++ d -> a = c /\ b = d.
Proof. intros H. apply app_inj_len. unfold blen in H. lia. Qed.
Lemma header_inj n n' i i' r r' : n < 2 ^ 24 -> n' < 2 ^ 24 -> le_enc 3 n ++ [i] ++ r = le_enc 3 n' ++ [i'] ++ r' -> n = n' /\ r = r'.
Proof.
  intros H H' E. apply app_inj_len in E as [E1 E2]; [|now rewrite !le_enc_length]. split; [eapply (le_enc_inj 3); eauto|]. now injection E2.
Qed.
Lemma reads_inv id s p id' r : reads id s p id' r ->
  (blen p < 2 ^ 24 - 1 /\ s = le_enc 3 (blen p) ++ [id] ++ p ++ r /\ id' = (id + 1) mod 256)
  \/ exists p1 q s1, p = p1 ++ q /\ blen p1 = 2 ^ 24 - 1 /\ s = le_enc 3 (2 ^ 24 - 1) ++ [id] ++ p1 ++ s1 /\ reads ((id + 1) mod 256) s1 q id' r.
Proof. destruct 1 as [id p rest H|id p q s id' rest H Hr]; [left; auto|right]. exists p, q, s. auto. Qed.
Lemma reads_det id s p id' r : reads id s p id' r -> forall p2 id2 r2, reads id s p2 id2 r2 -> p = p2 /\ id' = id2 /\ r = r2.
Proof.
  induction 1 as [id p rest H|id p q s id' rest H Hr IH]; intros p2 id2 r2 H2; apply reads_inv in H2 as [(H3 & E & ->)|(p1 & q1 & s1 & -> & H3 & E & H2)];
    (apply header_inj in E as [E1 E2]; [|clear - H H3; lia|clear - H H3; lia]).
  - apply app_inj_blen in E2 as [-> ->]; auto.
  - exfalso. clear - H E1. lia.
  - exfalso. clear - H3 E1. lia.
  - apply app_inj_blen in E2 as [-> ->]; [|congruence]. destruct (IH _ _ _ H2) as (-> & -> & ->). auto.
Qed.
Lemma reads_nonnil id s p id' r : reads id s p id' r -> (length r < length s)%nat.
Proof. induction 1; repeat rewrite app_length; rewrite le_enc_length; lia. Qed.
Lemma event_inj a b s n n' t db q q' : query_event a s n t db q = query_event b s n' t db q' -> q = q'.
Proof.
  unfold query_event. cbv zeta. intros E.
  repeat (apply app_inj_len in E; [|now rewrite ?le_enc_length]; destruct E as [_ E]). exact E.
Qed.
Lemma streams_rest server thread db id pos l s r : streams server thread db id pos l s r -> (length r <= length s)%nat.
Proof. induction 1 as [|id pos stamp q l s p next id' s' rest Hp Hn Hr Hs IH]; [lia|]. apply reads_nonnil in Hr. lia. Qed.
Lemma streams_det server thread db id pos l s : streams server thread db id pos l s [] -> forall l', streams server thread db id pos l' s [] -> map snd l = map snd l'.
Proof.
  remember [] as r eqn:Er. induction 1 as [|id pos stamp q l s p next id' s' rest Hp Hn Hr Hs IH]; intros l' H'; subst.
  - inversion H'; subst; [reflexivity|]. match goal with H : reads _ [] _ _ _ |- _ => apply reads_nonnil in H; cbn in H; lia end.
  - inversion H'; subst.
    + apply reads_nonnil in Hr. cbn in Hr. lia.
    + match goal with H : reads _ s _ _ _ |- _ => destruct (reads_det _ _ _ _ _ Hr _ _ _ H) as (E & -> & ->) end.
      pose proof (event_inj _ _ _ _ _ _ _ _ _ E) as ->. cbn [map snd]. f_equal. apply IH; auto.
      repeat rewrite event_blen in *. congruence.
Qed.

(** ** Sending *)
Section Send.
  Variables (table database : bytes) (server : N) (time_text : Z -> bytes).
  Hypothesis Ht : nameable table.
  Hypothesis Hdb : nameable database /\ blen database < 256.
  Hypothesis Hx : forall x, quotable (time_text x) /\ blen (time_text x) <= 100.
  Definition whole_packets (f : bytes * entry) : Prop :=
    forall q, query table time_text f = Ok q -> (34 + blen database + blen q) mod (2 ^ 24 - 1) <> 0.
  Lemma send_ok thread l : forall id pos, Forall (fun x => sendable (snd x)) l ->
    Forall (fun x => quotable (e_key (snd (snd x))) /\ e_size (snd (snd x)) <= 2 ^ 29 /\ whole_packets (snd x)) l ->
    exists s qs, send table database server time_text thread id (u32 pos) l = Ok s /\ streams server thread database (id mod 256) pos qs s []
      /\ map (fun x => statement_of table (snd x)) qs = map Some (map (meant time_text) (map snd l)) /\ map fst qs = map fst l.
  Proof.
    induction l as [|[stamp f] l IH]; intros id pos Hs Hq.
    - exists [], []. repeat split; auto. constructor.
    - apply Forall_cons_1 in Hs as [[S1 S2] Hs]. apply Forall_cons_1 in Hq as [(Q1 & Q2 & Q3) Hq]. cbn [snd] in *.
      destruct f as [ident e]. cbn [fst snd] in *.
      destruct (query_meant table time_text ident e Ht Q1 S1 Q2 (proj1 (Hx _)) (proj2 (Hx _)) S2) as (q & E1 & E2 & E3).
      assert (Hz : Forall (fun c => c <> 0) database). { destruct Hdb as [[H _] _]. eapply Forall_impl; [exact H|]. cbv beta. tauto. }
      cbn [send]. rewrite E1. cbn [bind]. rewrite (log_event_ok database server stamp thread pos q Hz (proj2 Hdb) E3). cbn [bind].
      set (p := query_event stamp server (pos + (33 + blen database + blen q)) thread database q).
      assert (Lp : blen p = 34 + blen database + blen q) by (unfold p; rewrite event_blen; lia).
      destruct (write id p) as [s1 id1] eqn:W.
      destruct (IH id1 (pos + (33 + blen database + blen q)) Hs Hq) as (s2 & qs & F1 & F2 & F3 & F4). rewrite F1. cbn [bind].
      exists (s1 ++ s2), ((stamp, q) :: qs). split; [reflexivity|]. split; [|split].
      + eapply streams_one; [reflexivity| |eapply (write_reads _ id p s1 id1 s2); [| |exact W]|exact F2].
        * rewrite event_blen. lia.
        * lia.
        * rewrite Lp. apply (Q3 q E1).
      + cbn [map snd]. now rewrite E2, F3.
      + cbn [map fst]. now rewrite F4.
  Qed.

  Lemma follows T s l T' s' fs t q thread id pos : wf_store s -> (2592000 <= T)%Z -> mirrors time_text T s t -> served T s l T' s' fs -> map snd q = fs ->
    Forall (fun f => quotable (e_key (snd f)) /\ e_size (snd f) <= 2 ^ 29 /\ whole_packets f) fs ->
    exists b, send table database server time_text thread id (u32 pos) q = Ok b
      /\ (exists qs, streams server thread database (id mod 256) pos qs b [])
      /\ forall qs, streams server thread database (id mod 256) pos qs b [] ->
         exists sts, map (fun x => statement_of table (snd x)) qs = map Some sts /\ mirrors time_text T' s' (fold_left execute sts t).
  Proof.
    intros Hwf HT HM HS Hq Hf. subst fs. destruct (served_mirrors _ _ _ _ _ _ _ _ HS Hwf HT HM) as [A B].
    destruct (send_ok thread q id pos) as (b & qs & E1 & E2 & E3 & E4); [now apply List.Forall_map|apply List.Forall_map in Hf; exact Hf|].
    exists b. split; [exact E1|]. split; [eauto|]. intros qs' H'. pose proof (streams_det _ _ _ _ _ _ _ H' _ E2) as D.
    exists (map (meant time_text) (map snd q)). split; [|exact A]. rewrite <- E3.
    rewrite <- !(map_map snd (statement_of table)). now rewrite D.
  Qed.
End Send.
