(** Proofs for the binary protocol (C19). *)
From Coq Require Import ZArith NArith List Bool Lia ZifyBool ZifyNat ZifyN.
From Verif Require Import Base BaseLemmas StorageModel TextModel TextProofs StreamModel StreamSpec StreamProofs StreamProofs2 BinaryModel BinarySpec.
Import ListNotations.
Local Open Scope N_scope.
Local Open Scope list_scope.

Lemma skipn_skipn (A : Type) (n m : nat) (l : list A) : skipn n (skipn m l) = skipn (m + n) l.
Proof. revert l. induction m as [|m IH]; intros l; [reflexivity|]. destruct l; [now rewrite !skipn_nil|]. cbn. apply IH. Qed.
Lemma fit f : (offset f + width f <= 24)%nat. Proof. destruct f; cbn; lia. Qed.
Lemma set_length f v h : List.length h = 24%nat -> List.length (set_field f v h) = 24%nat.
Proof.
  intros H. unfold set_field. rewrite !app_length, firstn_length, be_enc_length, skipn_length. pose proof (fit f). lia.
Qed.
Lemma get_set f v h : List.length h = 24%nat -> get_field f (set_field f v h) = v mod 256 ^ N.of_nat (width f).
Proof.
  intros H. pose proof (fit f). unfold get_field, set_field. set (V := be_enc _ _).
  assert (L : List.length V = width f) by apply be_enc_length.
  assert (L2 : List.length (firstn (offset f) h) = offset f) by (rewrite firstn_length; lia).
  rewrite skipn_app, L2, Nat.sub_diag, (skipn_all2 (firstn _ _)) by lia. rewrite skipn_O. cbn [app].
  rewrite firstn_app, L, Nat.sub_diag, firstn_all2 by lia. rewrite firstn_O, app_nil_r. unfold V.
  apply be_dec_enc. apply N.mod_lt. apply N.pow_nonzero. lia.
Qed.
Lemma get_set_other f g v h : List.length h = 24%nat -> f <> g -> get_field g (set_field f v h) = get_field g h.
Proof.
  intros H D. unfold get_field. f_equal.
  assert (X : (offset g + width g <= offset f)%nat \/ (offset f + width f <= offset g)%nat) by (destruct f, g; cbn; try lia; congruence).
  pose proof (fit f). pose proof (fit g). unfold set_field. set (V := be_enc (width f) _).
  assert (LV : List.length V = width f) by apply be_enc_length. clearbody V. destruct X as [X|X].
  - rewrite skipn_app, firstn_app. rewrite skipn_length, firstn_length.
    replace (width g - (Nat.min (offset f) (List.length h) - offset g))%nat with O by lia. cbn [firstn]. rewrite app_nil_r.
    rewrite skipn_firstn_comm, firstn_firstn. f_equal. lia.
  - rewrite skipn_app, firstn_length. rewrite skipn_all2 by (rewrite firstn_length; lia). cbn [app].
    rewrite skipn_app, skipn_all2 by lia. cbn [app]. rewrite skipn_skipn. f_equal. f_equal. lia.
Qed.

(** ** Fields of an encoded header *)
Lemma slice_at (f : field) (a b c : bytes) : List.length a = offset f -> List.length b = width f ->
  get_field f (a ++ b ++ c) = be_dec b.
Proof.
  intros A B. unfold get_field. rewrite skipn_app, <- A, skipn_all, Nat.sub_diag, skipn_O. cbn [app].
  now rewrite <- B, firstn_app, firstn_all, Nat.sub_diag, firstn_O, app_nil_r.
Qed.
Ltac at_field := unfold header; rewrite <- ?app_assoc;
  match goal with |- get_field ?f (?a ++ _) = _ => idtac end.
Lemma header_length m : List.length (header m) = 24%nat.
Proof. unfold header. rewrite !app_length, !be_enc_length. reflexivity. Qed.
Lemma header_fields m : well_sized m ->
  get_field FMagic (header m) = m_magic m /\ get_field FOpcode (header m) = m_opcode m
  /\ get_field FKeyLen (header m) = blen (m_key m) /\ get_field FExtras (header m) = blen (m_extras m)
  /\ get_field FDataType (header m) = 0 /\ get_field FStatus (header m) = m_status m
  /\ get_field FTotal (header m) = blen (m_extras m) + blen (m_key m) + blen (m_value m)
  /\ get_field FOpaque (header m) = m_opaque m /\ get_field FCas (header m) = m_cas m.
Proof.
  intros [z1 z2 z3 z4 z5 z6 z7 z8]. unfold header.
  set (a1 := be_enc 1 (m_magic m)). set (a2 := be_enc 1 (m_opcode m)). set (a3 := be_enc 2 (blen (m_key m))).
  set (a4 := be_enc 1 (blen (m_extras m))). set (a5 := be_enc 1 0). set (a6 := be_enc 2 (m_status m)).
  set (a7 := be_enc 4 (blen (m_extras m) + blen (m_key m) + blen (m_value m))). set (a8 := be_enc 4 (m_opaque m)). set (a9 := be_enc 8 (m_cas m)).
  assert (L1 : List.length a1 = 1%nat) by apply be_enc_length. assert (L2 : List.length a2 = 1%nat) by apply be_enc_length.
  assert (L3 : List.length a3 = 2%nat) by apply be_enc_length. assert (L4 : List.length a4 = 1%nat) by apply be_enc_length.
  assert (L5 : List.length a5 = 1%nat) by apply be_enc_length. assert (L6 : List.length a6 = 2%nat) by apply be_enc_length.
  assert (L7 : List.length a7 = 4%nat) by apply be_enc_length. assert (L8 : List.length a8 = 4%nat) by apply be_enc_length.
  assert (L9 : List.length a9 = 8%nat) by apply be_enc_length.
  assert (D1 : be_dec a1 = m_magic m) by (apply be_dec_enc; exact z1).
  assert (D2 : be_dec a2 = m_opcode m) by (apply be_dec_enc; exact z2).
  assert (D3 : be_dec a3 = blen (m_key m)) by (apply be_dec_enc; exact z7).
  assert (D4 : be_dec a4 = blen (m_extras m)) by (apply be_dec_enc; exact z6).
  assert (D5 : be_dec a5 = 0) by reflexivity.
  assert (D6 : be_dec a6 = m_status m) by (apply be_dec_enc; exact z3).
  assert (D7 : be_dec a7 = blen (m_extras m) + blen (m_key m) + blen (m_value m)) by (apply be_dec_enc; change (256 ^ N.of_nat 4) with 4294967296; lia).
  assert (D8 : be_dec a8 = m_opaque m) by (apply be_dec_enc; exact z4).
  assert (D9 : be_dec a9 = m_cas m) by (apply be_dec_enc; exact z5).
  clearbody a1 a2 a3 a4 a5 a6 a7 a8 a9.
  repeat match goal with |- _ /\ _ => split end; [rewrite <- D1|rewrite <- D2|rewrite <- D3|rewrite <- D4|rewrite <- D5|rewrite <- D6|rewrite <- D7|rewrite <- D8|rewrite <- D9]; clear - L1 L2 L3 L4 L5 L6 L7 L8 L9.
  - apply (slice_at FMagic [] a1); [reflexivity|exact L1].
  - apply (slice_at FOpcode a1 a2); cbn; lia.
  - rewrite (app_assoc a1). apply (slice_at FKeyLen (a1 ++ a2) a3); rewrite ?app_length; cbn; lia.
  - rewrite (app_assoc a1), (app_assoc _ a3). apply (slice_at FExtras ((a1 ++ a2) ++ a3) a4); rewrite ?app_length; cbn; lia.
  - rewrite (app_assoc a1), (app_assoc _ a3), (app_assoc _ a4). apply (slice_at FDataType (((a1 ++ a2) ++ a3) ++ a4) a5); rewrite ?app_length; cbn; lia.
  - rewrite (app_assoc a1), (app_assoc _ a3), (app_assoc _ a4), (app_assoc _ a5). apply (slice_at FStatus ((((a1 ++ a2) ++ a3) ++ a4) ++ a5) a6); rewrite ?app_length; cbn; lia.
  - rewrite (app_assoc a1), (app_assoc _ a3), (app_assoc _ a4), (app_assoc _ a5), (app_assoc _ a6). apply (slice_at FTotal (((((a1 ++ a2) ++ a3) ++ a4) ++ a5) ++ a6) a7); rewrite ?app_length; cbn; lia.
  - rewrite (app_assoc a1), (app_assoc _ a3), (app_assoc _ a4), (app_assoc _ a5), (app_assoc _ a6), (app_assoc _ a7). apply (slice_at FOpaque ((((((a1 ++ a2) ++ a3) ++ a4) ++ a5) ++ a6) ++ a7) a8); rewrite ?app_length; cbn; lia.
  - rewrite (app_assoc a1), (app_assoc _ a3), (app_assoc _ a4), (app_assoc _ a5), (app_assoc _ a6), (app_assoc _ a7), (app_assoc _ a8).
    rewrite <- (app_nil_r a9) at 1. apply (slice_at FCas (((((((a1 ++ a2) ++ a3) ++ a4) ++ a5) ++ a6) ++ a7) ++ a8) a9 []); rewrite ?app_length; cbn; lia.
Qed.

(** ** Reading a header *)
Lemma get_bytes_app d r : blen d <= int_max -> get_bytes (blen d) (d ++ r) = Ok (d, r).
Proof.
  intros H. unfold get_bytes. destruct (N.ltb_spec int_max (blen d)); [lia|]. rewrite blen_app. destruct (N.leb_spec (blen d) (blen d + blen r)); [|lia].
  unfold blen. rewrite Nnat.Nat2N.id, firstn_app, skipn_app, firstn_all, skipn_all, Nat.sub_diag, firstn_O, skipn_O. cbn [app]. now rewrite app_nil_r.
Qed.
Lemma read_header_spec magic h s : List.length h = 24%nat ->
  read_header magic (h ++ s) = if get_field FMagic h =? magic then Ok (h, s) else Err.
Proof.
  intros H. unfold read_header. assert (B : blen h = 24) by (unfold blen; rewrite H; reflexivity). rewrite <- B.
  rewrite get_bytes_app by (rewrite B; unfold int_max; lia). reflexivity.
Qed.
Lemma read_header_short magic s : blen s < 24 -> read_header magic s = Err.
Proof.
  intros H. unfold read_header, get_bytes. change (int_max <? 24) with false. cbv iota. destruct (N.leb_spec 24 (blen s)); [lia|]. reflexivity.
Qed.

(** ** Bodies *)
Lemma slice_ok (a b c : bytes) off len : off = blen a -> len = blen b -> slice off len (a ++ b ++ c) = Ok b.
Proof.
  intros -> ->. unfold slice. rewrite !blen_app. destruct (N.leb_spec (blen a + blen b) (blen a + (blen b + blen c))); [|lia].
  unfold blen. rewrite !Nnat.Nat2N.id, skipn_app, skipn_all, Nat.sub_diag, skipn_O. cbn [app]. now rewrite firstn_app, firstn_all, Nat.sub_diag, firstn_O, app_nil_r.
Qed.
Lemma body_of_ok m s : well_sized m -> body m <> [] ->
  body_of (get_field FTotal (header m)) (body m ++ s) = Ok (Some (body m), s).
Proof.
  intros Z H. pose proof (header_fields m Z) as (_ & _ & _ & _ & _ & _ & -> & _). destruct Z.
  assert (B : blen (body m) = blen (m_extras m) + blen (m_key m) + blen (m_value m)) by (unfold body; rewrite !blen_app; lia).
  rewrite <- B. unfold body_of. destruct (N.eqb_spec (blen (body m)) 0) as [E|E].
  - destruct (body m); [easy|]. rewrite blen_cons in E. lia.
  - destruct (N.ltb_spec int_max (blen (body m))); [unfold int_max in *; lia|]. cbn [orb]. rewrite get_bytes_app by auto. reflexivity.
Qed.
Lemma parse_body_ok m : well_sized m ->
  parse_body (header m) (Some (body m)) = Ok (mkEntry (m_key m) 0 0 (blen (m_value m)) (m_cas m) 0 [], body m).
Proof.
  intros Z. pose proof (header_fields m Z) as (_ & _ & K & X & _ & _ & T & _ & C). destruct Z. unfold parse_body. rewrite K, X, T, C.
  unfold body. rewrite slice_ok by reflexivity. cbn [bind]. f_equal. f_equal. f_equal. unfold u32. change (2 ^ 32) with 4294967296.
  replace (blen (m_extras m) + blen (m_key m) + blen (m_value m) + 4294967296 - blen (m_key m) + 4294967296 - blen (m_extras m)) with (blen (m_value m) + 2 * 4294967296).
  2:{ change (2 ^ 16) with 65536 in *. change (2 ^ 8) with 256 in *. lia. }
  rewrite N.mod_add by lia. apply N.mod_small. lia.
Qed.
Lemma take_data_ok m e : well_sized m -> e_size e = blen (m_value m) ->
  take_data (header m) e (body m) = Ok (with_data e (m_value m)).
Proof.
  intros Z E. pose proof (header_fields m Z) as (_ & _ & K & X & _). unfold take_data. rewrite K, X, E. unfold body. rewrite app_assoc.
  rewrite <- (app_nil_r (m_value m)) at 2. rewrite slice_ok; [reflexivity| |reflexivity]. now rewrite blen_app.
Qed.
