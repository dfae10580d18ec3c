(** Proofs for the stream property (C20). *)
From Coq Require Import ZArith NArith List Bool Lia ZifyBool ZifyNat ZifyN.
From Verif Require Import Base BaseLemmas StorageModel TextModel TextSpec TextProofs TextProofs2 TextProofs3 StreamModel StreamSpec.
Import ListNotations.
Local Open Scope N_scope.
Local Open Scope list_scope.

Lemma cut_line_split s l r : cut_line s = Some (l, r) -> s = l ++ 10 :: r /\ ~ In 10 l.
Proof.
  revert l r. induction s as [|c s IH]; cbn; intros l r H; [discriminate|].
  destruct (c =? 10) eqn:E.
  - injection H as <- <-. apply N.eqb_eq in E. subst. auto.
  - destruct (cut_line s) as [(l', r')|] eqn:F; [|discriminate]. injection H as <- <-.
    destruct (IH _ _ eq_refl) as (-> & N). split; [reflexivity|]. intros [X|X]; [lia|auto].
Qed.
Lemma cut_line_none s : cut_line s = None <-> ~ In 10 s.
Proof.
  induction s as [|c s IH]; cbn; [tauto|].
  destruct (c =? 10) eqn:E.
  - apply N.eqb_eq in E. split; [discriminate|]. intros H. exfalso. apply H. now left.
  - destruct (cut_line s) as [(l', r')|] eqn:F.
    + split; [discriminate|]. intros H. exfalso. apply cut_line_split in F as (-> & _). apply H. right. apply in_or_app. right. now left.
    + split; auto. intros _ [X|X]; [lia|]. now apply IH in X.
Qed.
Lemma cut_line_ok' l r : ~ In 10 l -> cut_line (l ++ 10 :: r) = Some (l, r).
Proof. intros H. apply cut_line_ok. apply Forall_forall. intros x Hx ->. auto. Qed.
Lemma cut_line_app_none a b : ~ In 10 a -> ~ In 10 b -> cut_line (a ++ b) = None.
Proof. intros. apply cut_line_none. rewrite in_app_iff. tauto. Qed.

Lemma drop_cr_app a b : b <> [] -> drop_cr (a ++ b) = a ++ drop_cr b.
Proof.
  intros H. destruct b as [|x b] using rev_ind; [easy|]. clear IHb H.
  unfold drop_cr. rewrite app_assoc, !rev_app_distr. cbn [rev app].
  destruct (N.eq_dec x 13) as [->|Hx].
  - rewrite rev_app_distr, !rev_involutive. reflexivity.
  - destruct x as [|[[[[]| |]|[[]| |]|]|[[[]| |]|[[]| |]|]|]]; try reflexivity; try (now rewrite app_assoc); congruence.
Qed.
Lemma drop_cr_nil : drop_cr [] = []. Proof. reflexivity. Qed.

Lemma readline_sock_agrees ss r b : Forall (fun s => s <> []) ss -> ~ In 10 r ->
  (match b with Some (_, u) => u = [] | None => True end) ->
  agrees (readline_sock r b ss) (get_line (r ++ concat ss)).
Proof.
  revert r. induction ss as [|seg ss IH]; intros r W Hr Hb.
  - cbn [readline_sock concat]. rewrite app_nil_r. unfold get_line. rewrite (proj2 (cut_line_none r) Hr). exact I.
  - inversion W as [|? ? Hs W']; subst. destruct seg as [|x seg]; [easy|].
    cbn [readline_sock concat]. set (sg := x :: seg) in *. destruct (cut_line sg) as [(l, rest)|] eqn:E.
    + apply cut_line_split in E as (E & Hl). rewrite E, <- app_assoc, app_assoc. cbn [app]. unfold get_line.
      rewrite cut_line_ok' by (rewrite in_app_iff; tauto). unfold agrees. split; [|split].
      * destruct l as [|y l]; [now rewrite app_nil_r|]. rewrite drop_cr_app by easy. reflexivity.
      * unfold stream, unread. cbn [rbuf segs]. destruct rest as [|z rest].
        -- destruct b as [(?, u)|]; [subst u|]; reflexivity.
        -- destruct b as [(?, u)|]; [subst u|]; reflexivity.
      * exact W'.
    + apply cut_line_none in E. rewrite app_assoc. apply IH; auto. rewrite in_app_iff. tauto.
Qed.
Lemma readline_agrees c : wf_conn c -> agrees (readline c) (get_line (stream c)).
Proof.
  intros W. destruct c as [[(pre, [|x u])|] ss]; unfold readline, stream, unread; cbn [rbuf segs].
  - apply readline_sock_agrees; auto.
  - set (v := x :: u) in *. destruct (cut_line v) as [(l, rest)|] eqn:E.
    + apply cut_line_split in E as (E & Hl). rewrite E, <- app_assoc. cbn [app]. unfold get_line. rewrite cut_line_ok' by auto.
      unfold agrees. split; [reflexivity|]. split; [reflexivity|exact W].
    + apply readline_sock_agrees; auto. now apply cut_line_none.
  - apply readline_sock_agrees; auto.
Qed.

Definition cut (n : nat) (s : bytes) : res (bytes * bytes) :=
  if (n <=? List.length s)%nat then Ok (firstn n s, skipn n s) else Err.
Lemma take_segs_spec n ss : (0 < n)%nat -> Forall (fun s => s <> []) ss ->
  match take_segs n ss with
  | Ok (d, rest) => cut n (concat ss) = Ok (d, concat rest) /\ Forall (fun s => s <> []) rest
  | Err => cut n (concat ss) = Err
  | Undef => False
  end.
Proof.
  revert n. induction ss as [|seg ss IH]; intros n Hn W.
  - cbn [take_segs concat]. unfold cut. cbn [List.length]. destruct (Nat.leb_spec n 0); [lia|reflexivity].
  - inversion W as [|? ? Hs W']; subst. cbn [take_segs concat]. destruct seg as [|x seg]; [easy|]. set (sg := x :: seg) in *.
    unfold cut. rewrite app_length. destruct (Nat.ltb_spec n (List.length sg)).
    + destruct (Nat.leb_spec n (List.length sg + List.length (concat ss))); [|lia].
      rewrite firstn_app, skipn_app. replace (n - List.length sg)%nat with O by lia. cbn [firstn skipn concat]. rewrite app_nil_r. split; [reflexivity|].
      constructor; auto. intros F. apply (f_equal (@List.length N)) in F. rewrite skipn_length in F. cbn [List.length] in F. lia.
    + destruct (Nat.eqb_spec n (List.length sg)).
      * destruct (Nat.leb_spec n (List.length sg + List.length (concat ss))); [|lia].
        rewrite firstn_app, skipn_app. replace (n - List.length sg)%nat with O by lia. cbn [firstn skipn]. rewrite app_nil_r, firstn_all2, skipn_all2 by lia. auto.
      * specialize (IH (n - List.length sg)%nat ltac:(lia) W'). destruct (take_segs (n - List.length sg) ss) as [| |(d, rest)]; cbn [bind]; [easy| |].
        -- unfold cut in IH. destruct (Nat.leb_spec (n - List.length sg) (List.length (concat ss))); [discriminate|].
           destruct (Nat.leb_spec n (List.length sg + List.length (concat ss))); [lia|reflexivity].
        -- destruct IH as (IH & W2). split; auto. unfold cut in IH. destruct (Nat.leb_spec (n - List.length sg) (List.length (concat ss))); [|discriminate].
           destruct (Nat.leb_spec n (List.length sg + List.length (concat ss))); [|lia]. injection IH as <- <-.
           rewrite firstn_app, skipn_app, (firstn_all2 sg), (skipn_all2 sg) by lia. reflexivity.
Qed.

Lemma cut_app d n s : cut n s = match cut (List.length d + n) (d ++ s) with Ok (x, r) => Ok (skipn (List.length d) x, r) | Err => Err | Undef => Undef end.
Proof.
  unfold cut. rewrite app_length. destruct (Nat.leb_spec n (List.length s)).
  - destruct (Nat.leb_spec (List.length d + n) (List.length d + List.length s)); [|lia].
    rewrite firstn_app, !skipn_app. rewrite (firstn_all2 d), (skipn_all2 d), (skipn_all2 d), Nat.sub_diag by lia. cbn [skipn app].
    replace (List.length d + n - List.length d)%nat with n by lia. reflexivity.
  - destruct (Nat.leb_spec (List.length d + n) (List.length d + List.length s)); [lia|reflexivity].
Qed.
Lemma cut_app_ok d n s x r : cut n s = Ok (x, r) -> cut (List.length d + n) (d ++ s) = Ok (d ++ x, r).
Proof.
  unfold cut. rewrite app_length. destruct (Nat.leb_spec n (List.length s)); [|discriminate]. intros [= <- <-].
  destruct (Nat.leb_spec (List.length d + n) (List.length d + List.length s)); [|lia].
  rewrite firstn_app, skipn_app, (firstn_all2 d), (skipn_all2 d) by lia. replace (List.length d + n - List.length d)%nat with n by lia. reflexivity.
Qed.
Lemma cut_app_err d n s : cut n s = Err -> cut (List.length d + n) (d ++ s) = Err.
Proof. unfold cut. rewrite app_length. destruct (Nat.leb_spec n (List.length s)); [discriminate|]. intros _. destruct (Nat.leb_spec (List.length d + n) (List.length d + List.length s)); [lia|reflexivity]. Qed.

Lemma readsize_sock_agrees ss : forall d n b, (0 < n)%nat -> Forall (fun s => s <> []) ss ->
  (match b with Some (_, u) => u = [] | None => True end) ->
  agrees (readsize_sock d n b ss) (cut (List.length d + n) (d ++ concat ss)).
Proof.
  induction ss as [|seg ss IH]; intros d n b Hn W Hb; cbn [readsize_sock].
  - destruct (1024 <? N.of_nat n).
    + cbn [take_segs bind concat]. rewrite cut_app_err; [exact I|]. unfold cut. cbn [List.length]. destruct (Nat.leb_spec n 0); [lia|reflexivity].
    + rewrite cut_app_err; [exact I|]. unfold cut. cbn [List.length concat]. destruct (Nat.leb_spec n 0); [lia|reflexivity].
  - destruct (1024 <? N.of_nat n).
    + pose proof (take_segs_spec n (seg :: ss) Hn W) as T. destruct (take_segs n (seg :: ss)) as [| |(x, rest)]; [easy| |]; cbn [bind].
      * now rewrite (cut_app_err _ _ _ T).
      * destruct T as (T & W'). rewrite (cut_app_ok _ _ _ _ _ T). unfold agrees. split; [reflexivity|]. split; [|exact W'].
        unfold stream, unread. cbn [rbuf segs]. destruct b as [(?, u)|]; [subst u|]; reflexivity.
    + inversion W as [|? ? Hs W']; subst. destruct seg as [|x seg]; [easy|]. set (sg := x :: seg) in *. cbn [concat].
      destruct (Nat.ltb_spec n (List.length sg)).
      * rewrite (cut_app_ok d n (sg ++ concat ss) (firstn n sg) (skipn n sg ++ concat ss)).
        2:{ unfold cut. rewrite app_length. destruct (Nat.leb_spec n (List.length sg + List.length (concat ss))); [|lia].
            rewrite firstn_app, skipn_app. replace (n - List.length sg)%nat with O by lia. cbn [firstn skipn]. now rewrite app_nil_r. }
        unfold agrees. split; [reflexivity|]. split; [|exact W']. unfold stream, unread. cbn [segs rbuf].
        destruct b as [(?, u)|]; [subst u; reflexivity|]. destruct (blen sg <? 1024); reflexivity.
      * destruct (Nat.eqb_spec n (List.length sg)).
        -- rewrite (cut_app_ok d n (sg ++ concat ss) sg (concat ss)).
           2:{ unfold cut. rewrite app_length. destruct (Nat.leb_spec n (List.length sg + List.length (concat ss))); [|lia].
               rewrite firstn_app, skipn_app. replace (n - List.length sg)%nat with O by lia. cbn [firstn skipn]. rewrite app_nil_r, firstn_all2, skipn_all2 by lia. reflexivity. }
           unfold agrees. split; [reflexivity|]. split; [|exact W']. unfold stream, unread. cbn [segs rbuf].
           destruct b as [(?, u)|]; [subst u|]; reflexivity.
        -- rewrite app_assoc. replace (List.length d + n)%nat with (List.length (d ++ sg) + (n - List.length sg))%nat by (rewrite app_length; lia).
           apply IH; auto. lia.
Qed.
Lemma get_bytes_cut n s : n <= int_max -> get_bytes n s = cut (N.to_nat n) s.
Proof.
  intros H. unfold get_bytes, cut. destruct (N.ltb_spec int_max n); [lia|]. unfold blen.
  destruct (N.leb_spec n (N.of_nat (List.length s))); destruct (Nat.leb_spec (N.to_nat n) (List.length s)); try lia; reflexivity.
Qed.
Lemma readsize_agrees n c : wf_conn c -> agrees (readsize n c) (get_bytes n (stream c)).
Proof.
  intros W. unfold readsize. destruct (N.ltb_spec int_max n) as [H|H].
  - unfold get_bytes. destruct (N.ltb_spec int_max n); [exact I|lia].
  - rewrite get_bytes_cut by auto. destruct (N.eqb_spec n 0) as [->|Hn].
    + cbn. auto.
    + set (k := N.to_nat n). assert (0 < k)%nat by lia. unfold stream, unread.
      destruct (rbuf c) as [(pre, [|x u])|] eqn:R.
      * change ([] ++ concat (segs c)) with ([] ++ concat (segs c)). change k with (List.length (@nil N) + k)%nat. apply readsize_sock_agrees; auto.
      * set (v := x :: u) in *. destruct (Nat.ltb_spec k (List.length v)).
        -- unfold cut. rewrite app_length. destruct (Nat.leb_spec k (List.length v + List.length (concat (segs c)))); [|lia].
           rewrite firstn_app, skipn_app. replace (k - List.length v)%nat with O by lia. cbn [firstn skipn]. rewrite app_nil_r.
           unfold agrees. split; [reflexivity|]. split; [reflexivity|exact W].
        -- destruct (Nat.eqb_spec k (List.length v)).
           ++ unfold cut. rewrite app_length. destruct (Nat.leb_spec k (List.length v + List.length (concat (segs c)))); [|lia].
              rewrite firstn_app, skipn_app. replace (k - List.length v)%nat with O by lia. cbn [firstn skipn]. rewrite app_nil_r, firstn_all2, skipn_all2 by lia.
              unfold agrees. split; [reflexivity|]. split; [reflexivity|exact W].
           ++ replace k with (List.length v + (k - List.length v))%nat at 2 by lia. apply readsize_sock_agrees; auto. lia.
      * change k with (List.length (@nil N) + k)%nat. apply (readsize_sock_agrees (segs c) [] k None); auto.
Qed.

(** ** push back *)
(** The protocol byte. *)
Lemma push_back_lazy pre p u ss : push_back (mkConn (Some (pre ++ p, u)) ss) p = mkConn (Some (pre, p ++ u)) ss.
Proof.
  unfold push_back. cbn [rbuf segs]. rewrite blen_app. destruct (N.leb_spec (blen p) (blen pre + blen p)); [|lia].
  rewrite app_length. replace (List.length pre + List.length p - List.length p)%nat with (List.length pre) by lia.
  rewrite firstn_app, skipn_app, Nat.sub_diag, firstn_all, skipn_all. cbn [firstn skipn]. now rewrite app_nil_r.
Qed.
Lemma push_back_short x u ss : push_back (mkConn (Some ([], u)) ss) [x] = mkConn (Some ([], x :: u)) ss.
Proof. reflexivity. Qed.
Lemma read_magic_ok c : wf_conn c -> ~ stale c ->
  match stream c with
  | [] => read_magic c = Err
  | x :: _ => exists c', read_magic c = Ok (x, c') /\ stream c' = stream c /\ wf_conn c' /\ unread c' <> []
  end.
Proof.
  intros W NS. destruct c as [b ss]. unfold read_magic, readsize. change (int_max <? 1) with false. change (1 =? 0) with false.
  change (N.to_nat 1) with 1%nat. cbv zeta beta iota.
  assert (SOCK : forall b, (match b with Some (_, u) => u = [] | None => True end) -> ~ stale (mkConn b ss) ->
    match concat ss with
    | [] => bind (readsize_sock [] 1 b ss) (fun '(p, c) => Ok (hd 0 p, push_back c p)) = Err
    | x :: _ => exists c', bind (readsize_sock [] 1 b ss) (fun '(p, c) => Ok (hd 0 p, push_back c p)) = Ok (x, c') /\ stream c' = concat ss /\ wf_conn c' /\ unread c' <> []
    end).
  { change (Forall (fun s => s <> []) ss) in W. clear b NS. intros b Hb NS. destruct ss as [|[|x [|y sg]] ss].
    - reflexivity.
    - inversion W. easy.
    - cbn [readsize_sock concat app List.length N.of_nat]. change (1024 <? N.of_nat 1) with false. cbv iota. cbn [bind].
      destruct b as [(pre, u)|].
      + subst u. destruct pre as [|z pre].
        * eexists. split; [reflexivity|]. split; [reflexivity|]. split; [now inversion W|]. easy.
        * exfalso. apply NS. exists (z :: pre), x, ss. easy.
      + eexists. split; [reflexivity|]. split; [reflexivity|]. split; [now inversion W|]. easy.
    - cbn [readsize_sock concat app List.length]. change (1024 <? N.of_nat 1) with false.
      change (1 <? S (S (List.length sg)))%nat with true. cbv iota. cbn [bind firstn skipn].
      destruct b as [(pre, u)|].
      + subst u. eexists. split; [reflexivity|]. split; [reflexivity|]. split; [now inversion W|]. easy.
      + cbn [hd]. destruct (blen (x :: y :: sg) <? 1024).
        * eexists. split; [reflexivity|]. split; [reflexivity|]. split; [now inversion W|]. easy.
        * eexists. split; [reflexivity|]. split; [reflexivity|]. split; [now inversion W|]. easy. }
  cbn [rbuf]. destruct b as [(pre, [|x u])|].
  - unfold stream, unread. cbn [rbuf segs app]. apply SOCK; auto.
  - unfold stream, unread. cbn [rbuf segs app]. destruct u as [|y u].
    + cbn [List.length Nat.ltb Nat.eqb Nat.leb bind hd]. eexists. split; [reflexivity|]. split; [reflexivity|]. split; [exact W|]. easy.
    + cbn [List.length Nat.ltb Nat.eqb Nat.leb bind hd firstn skipn segs]. rewrite push_back_lazy.
      eexists. split; [reflexivity|]. split; [reflexivity|]. split; [exact W|]. easy.
  - unfold stream, unread. cbn [rbuf segs app]. apply SOCK; auto.
Qed.
