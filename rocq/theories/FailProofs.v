(** Proofs about a database that fails. *)
From stdpp Require Import gmap.
From Coq Require Import String Lia ZifyBool ZifyNat ZifyN.
From Verif Require Import Base BaseLemmas StorageModel StorageSpec StorageProofs TextModel SessionModel ServerModel DumpModel FailModel FailSpec.
Local Open Scope N_scope.

Section Ok.
  Variable ok : bytes -> bool.
  Lemma remove_cases s now e b : remove_f ok s now e b = (remove s now e b, false) \/ (remove_f ok s now e b = (mkOut s (-1) None e, true) /\ ok (e_key e) = false).
  Proof.
    unfold remove_f, remove. destruct (get_header s (e_key e) (empty_entry [])) as [cur ex].
    destruct (negb (has b behavior_skip_version) && _ && _); [now left|]. destruct (negb ex); [now left|]. destruct (ok (e_key e)); [now left|now right].
  Qed.
  Lemma get_cases s now e b : get_f ok s now e b = (get s now e b, false)
    \/ (exists e', get_f ok s now e b = (mkOut s 0 (Some result_not_found) e', true) /\ o_ret (get s now e b) = 0%Z /\ o_res (get s now e b) = Some result_not_found).
  Proof.
    unfold get_f, get. destruct (db s !! e_key e) as [raw|]; [|now left]. destruct (unser_header raw e) as [e1 fits].
    destruct (negb fits); [now left|]. destruct (negb (blen raw - header_size =? e_size e1)); [now left|].
    destruct (negb (has b behavior_skip_timestamp) && expired_at now (e_expire e1)); [|now left].
    destruct (remove_cases s now e1 (N.lor (N.land b behavior_skip_lock) behavior_version_equal)) as [-> | [-> _]]; [now left|]. right. eexists. repeat split.
  Qed.
  Lemma get_store s now e b : o_res (get s now e b) <> Some result_not_found -> (o_ret (get s now e b) <? 0)%Z = false -> o_store (get s now e b) = s.
  Proof.
    unfold get. destruct (db s !! e_key e) as [raw|]; [|reflexivity]. destruct (unser_header raw e) as [e1 fits].
    destruct (negb fits); [reflexivity|]. destruct (negb (blen raw - header_size =? e_size e1)); [reflexivity|].
    destruct (negb (has b behavior_skip_timestamp) && expired_at now (e_expire e1)); [|reflexivity]. cbn. congruence.
  Qed.
  Notation apt := (N.lor behavior_append (N.lor behavior_prepend behavior_touch)).
  Lemma current_cases s now k b :
    (exists s1 c ex, current_entry_f ok s now k b = (s1, c, ex, false) /\ current_entry s now k b = (s1, c, ex) /\ (ex = true \/ has b apt = false -> s1 = s))
    \/ (has b apt = true /\ exists c s' c', current_entry_f ok s now k b = (s, c, false, true) /\ current_entry s now k b = (s', c', false)).
  Proof.
    unfold current_entry_f, current_entry. destruct (has b apt) eqn:A.
    - destruct (get_cases s now (empty_entry k) behavior_skip_lock) as [-> | (e' & -> & R & S)].
      + left. destruct (match o_res (get s now (empty_entry k) behavior_skip_lock) with Some result_not_found => true | _ => (o_ret (get s now (empty_entry k) behavior_skip_lock) <? 0)%Z end) eqn:M.
        * do 3 eexists. split; [reflexivity|]. split; [reflexivity|]. intros [H|H]; discriminate H.
        * do 3 eexists. split; [reflexivity|]. split; [reflexivity|]. intros _. apply get_store; [intro X; rewrite X in M; discriminate M|].
          destruct (o_res (get s now (empty_entry k) behavior_skip_lock)) as [[]|]; try exact M; discriminate M.
      + right. split; [reflexivity|]. rewrite S. cbn [o_res o_store o_entry]. do 3 eexists. split; reflexivity.
    - left. destruct (get_header s k (empty_entry [])) as [cur ex]. do 3 eexists. split; [reflexivity|]. split; [reflexivity|]. auto.
  Qed.
  Lemma absent_state now b c : current_state now b c false = st_not_expired \/ current_state now b c false = st_gone.
  Proof. unfold current_state. destruct (_ && _ && _); auto. Qed.
  (** the behaviours of the requests, and of a copy *)
  Definition usual (b : N) : Prop :=
    has b apt = has b (N.lor behavior_append behavior_prepend) || has b behavior_touch
    /\ (has b (N.lor behavior_append behavior_prepend) = true -> has b behavior_replace = true) /\ (has b apt = true -> has b behavior_add = false).
  Lemma usual_store ident : usual (store_behavior ident).
  Proof.
    unfold store_behavior. repeat match goal with |- usual (if ?c then _ else _) => destruct c end;
      (split; [reflexivity|]; split; intro H; try reflexivity; vm_compute in H; discriminate H).
  Qed.
  Lemma usual_touch : usual behavior_touch.
  Proof. split; [reflexivity|]. split; [intro H; vm_compute in H; discriminate H|reflexivity]. Qed.
  Lemma usual_dump : usual behavior_dump.
  Proof. split; [reflexivity|]. split; intro H; vm_compute in H; discriminate H. Qed.

  Definition as_usual (x : option outcome) : option (outcome * bool) := match x with Some o => Some (o, false) | None => None end.
  Lemma put_cases s e raw r done :
    (put_f ok s e raw false r done = match db_put s (e_key e) raw with Some s2 => Some (mkOut s2 0 (Some r) done, false) | None => None end
     /\ (ok (e_key e) = true \/ db_put s (e_key e) raw = None))
    \/ (put_f ok s e raw false r done = Some (mkOut s (-1) None done, true) /\ ok (e_key e) = false).
  Proof. unfold put_f. destruct (db_put s (e_key e) raw); [|left; auto]. destruct (ok (e_key e)); [left; auto|now right]. Qed.
  (** What failed: the write itself, or the removal of an expired record on the way to an answer. *)
  Definition failed (s : store) (e : entry) (o : outcome) (good : option outcome) : Prop :=
    o_store o = s /\ (o_ret o = (-1)%Z \/ exists o' r, good = Some o' /\ o_ret o = 0%Z /\ o_ret o' = 0%Z /\ o_res o = Some r /\ o_res o' = Some r
      /\ (r = result_not_stored \/ r = result_not_found) /\ o_entry o = e /\ o_entry o' = e).
  (** The request was refused, with the database in order. *)
  Definition nothing_done (x : option outcome) : Prop := forall o r, x = Some o -> o_res o = Some r -> is_stored r = false.
  Lemma next_refused st cur e b r : next_version st cur e b = inl r -> is_stored r = false.
  Proof.
    unfold next_version. destruct (has b behavior_cas).
    - destruct (cur_state_eqb st st_gone); [intro H; injection H as <-; reflexivity|]. destruct (negb _); [intro H; injection H as <-; reflexivity|discriminate].
    - destruct (has b behavior_touch); [discriminate|]. destruct (negb (has b behavior_skip_version) && _).
      + destruct (_ && _); [intro H; injection H as <-; reflexivity|discriminate].
      + destruct (_ =? _); discriminate.
  Qed.
  Ltac nothing' := split; [reflexivity|]; right; let X := fresh "X" in let Y := fresh "Y" in
    intros ? ? X Y; first [discriminate X | injection X as <-; cbn in Y; first [discriminate Y | injection Y as <-; reflexivity]].
  Ltac nothing := left; nothing'.
  Lemma set_cases s now e b : usual b -> (set_f ok s now e b = as_usual (set s now e b) /\ (ok (e_key e) = true \/ nothing_done (set s now e b))) \/ exists o, set_f ok s now e b = Some (o, true) /\ failed s e o (set s now e b).
  Proof.
    intros (U1 & U2 & U3). unfold set_f, set.
    destruct (current_cases s now (e_key e) b) as [(s1 & cur & ex & -> & -> & K) | (A & c & s' & c' & -> & ->)].
    - destruct (has b behavior_add && _); [nothing|]. destruct (has b behavior_replace && _); [nothing|].
      destruct (has b behavior_touch && negb (cur_state_eqb (current_state now b cur ex) st_alive)) eqn:T; [nothing|].
      destruct (next_version _ cur e b) as [r|v] eqn:NV; [left; split; [reflexivity|]; right; intros o' r' X Y; injection X as <-; cbn in Y; injection Y as <-; exact (next_refused _ _ _ _ _ NV)|].
      assert (AL : cur_state_eqb (current_state now b cur ex) st_alive = true -> s1 = s).
      { intro X. apply K. left. destruct ex; [reflexivity|]. destruct (absent_state now b cur) as [Y|Y]; rewrite Y in X; discriminate X. }
      destruct (has b (N.lor behavior_append behavior_prepend)) eqn:AP.
      + destruct (cur_state_eqb (current_state now b cur ex) st_alive); [|nothing]. rewrite (AL eq_refl). cbn [negb].
        destruct (memcpy (e_data cur) (e_size cur)) as [dc|]; [|nothing]. destruct (memcpy _ _) as [dn|]; [|nothing]. cbv zeta.
        match goal with |- context [put_f ok s e ?raw false ?r ?d] => destruct (put_cases s e raw r d) as [[-> O] | [-> _]] end.
        * left. destruct (db_put s (e_key e) _); [|nothing']. destruct O as [O|O]; [|discriminate O]. split; [destruct (has b behavior_touch); reflexivity|now left].
        * right. eexists. split; [reflexivity|]. split; [reflexivity|]. now left.
      + destruct (has b behavior_touch) eqn:TO.
        * cbn [andb] in T. apply negb_false_iff in T. rewrite (AL T).
          destruct (memcpy (e_data cur) (e_size cur)) as [dc|]; [|nothing]. cbv zeta.
          match goal with |- context [put_f ok s e ?raw false ?r ?d] => destruct (put_cases s e raw r d) as [[-> O] | [-> _]] end.
          -- left. destruct (db_put s (e_key e) _); [|nothing']. destruct O as [O|O]; [|discriminate O]. split; [reflexivity|now left].
          -- right. eexists. split; [reflexivity|]. split; [reflexivity|]. now left.
        * rewrite (K (or_intror U1)). destruct (memcpy _ _) as [dc|]; [|nothing].
          match goal with |- context [put_f ok s e ?raw false ?r ?d] => destruct (put_cases s e raw r d) as [[-> O] | [-> _]] end.
          -- left. destruct (db_put s (e_key e) _); [|nothing']. destruct O as [O|O]; [|discriminate O]. split; [reflexivity|now left].
          -- right. eexists. split; [reflexivity|]. split; [reflexivity|]. now left.
    - right. rewrite (U3 A). cbn [andb].
      assert (N1 : cur_state_eqb (current_state now b c false) st_alive = false) by (destruct (absent_state now b c) as [Y|Y]; rewrite Y; reflexivity).
      assert (N2 : cur_state_eqb (current_state now b c' false) st_alive = false) by (destruct (absent_state now b c') as [Y|Y]; rewrite Y; reflexivity).
      rewrite N1, N2. cbn [negb]. rewrite !andb_true_r. destruct (has b behavior_replace) eqn:R.
      + eexists. split; [reflexivity|]. split; [reflexivity|]. right. do 2 eexists. split; [reflexivity|]. repeat split. now left.
      + rewrite U1 in A. destruct (has b (N.lor behavior_append behavior_prepend)); [discriminate (U2 eq_refl)|]. cbn [orb] in A. rewrite A.
        eexists. split; [reflexivity|]. split; [reflexivity|]. right. do 2 eexists. split; [reflexivity|]. repeat split. now right.
  Qed.
  Lemma incr_cases s now e v i : (incr_f ok s now e v i 0 = as_usual (incr s now e v i 0) /\ (ok (e_key e) = true \/ nothing_done (incr s now e v i 0))) \/ exists o, incr_f ok s now e v i 0 = Some (o, true) /\ failed s e o (incr s now e v i 0).
  Proof.
    unfold incr_f, incr. destruct (db s !! e_key e) as [raw|]; [|nothing]. destruct (unser_header raw (empty_entry [])) as [c0 fits].
    destruct (negb fits); [nothing|]. cbv zeta. destruct (negb (_ =? _)); [nothing|]. destruct (negb _ && _).
    - match goal with |- context [remove_f ok s now ?c ?b] => destruct (remove_cases s now c b) as [-> | [-> _]] end; [nothing|].
      right. eexists. split; [reflexivity|]. split; [reflexivity|]. right. do 2 eexists. split; [reflexivity|]. repeat split. now right.
    - match goal with |- context [put_f ok s e ?raw false ?r ?d] => destruct (put_cases s e raw r d) as [[-> O] | [-> _]] end.
      + left. destruct (db_put s (e_key e) _); [|nothing']. destruct O as [O|O]; [|discriminate O]. split; [reflexivity|now left].
      + right. eexists. split; [reflexivity|]. split; [reflexivity|]. now left.
  Qed.
End Ok.

Lemma finish_failed s e o good done ident answer p : failed s e o good -> finish o done ident answer = Ok p ->
  done result_not_stored = false -> done result_not_found = false -> answer result_not_stored = answer_line result_not_stored -> answer result_not_found = answer_line result_not_found ->
  p_store p = s /\ p_forward p = None /\ (p_answer p = io_error \/ (In (p_answer p) refusals /\ exists o', good = Some o' /\
     forall answer', answer' result_not_stored = answer_line result_not_stored -> answer' result_not_found = answer_line result_not_found ->
     exists p', finish o' done ident answer' = Ok p' /\ p_answer p' = p_answer p /\ p_forward p' = None)).
Proof.
  intros [S F] E D1 D2 A1 A2. unfold finish in E. destruct F as [R | (o' & r & G & R & R' & X & X' & Y & Z1 & Z2)].
  - rewrite R in E. cbn in E. injection E as <-. cbn. auto.
  - rewrite R in E. cbn in E. rewrite X in E. injection E as <-. cbn [p_store p_forward p_answer].
    assert (D : done r = false) by (destruct Y as [-> | ->]; assumption). rewrite D. split; [exact S|]. split; [reflexivity|]. right. split.
    + rewrite Z1. unfold refusals. destruct (noreply e); [now left|]. destruct Y as [-> | ->]; [rewrite A1|rewrite A2]; cbn [In]; auto.
    + exists o'. split; [exact G|]. intros answer' B1 B2. unfold finish. rewrite R'. cbn. rewrite X', D. eexists. split; [reflexivity|]. split; [|reflexivity].
      cbn [p_answer]. rewrite Z1, Z2. destruct (noreply e); [reflexivity|]. destruct Y as [-> | ->]; congruence.
Qed.
(** One request that writes. *)
Lemma serve_write m now n r p n' k : key_of r = Some k -> serve m now n r = Ok (p, n') -> n_store n' = p_store p /\
  ((n_healthy n' = n_healthy n /\ run_request now (n_store n) r = Ok p)
   \/ (n_healthy n' = false /\ p_store p = n_store n /\ p_forward p = None
       /\ (p_answer p = io_error \/ (In (p_answer p) refusals /\ exists p', run_request now (n_store n) r = Ok p' /\ p_answer p' = p_answer p /\ p_forward p' = None)))).
Proof.
  assert (T : forall x err p n', told n x err = Ok (p, n') -> x = Ok p /\ n' = mkNode (p_store p) (n_healthy n && negb err)).
  { intros x err q n1 E. unfold told in E. destruct x as [| |q1]; cbn [bind] in E; try discriminate E. injection E as <- <-. auto. }
  destruct n as [s h]. cbn [n_store n_healthy] in *. intros K E. destruct r as [ident e|e|ident e|ident e v|ident keys|w|nr|nr|w]; try discriminate K; cbn [serve n_store] in E.
  - unfold with_outcome in E. cbn [run_request]. unfold run_store. destruct (set_cases (writes m) s now e _ (usual_store ident)) as [[X _] | (o & X & F)]; rewrite X in E.
    + destruct (set s now e (store_behavior ident)) as [o|]; [|discriminate E]. cbn [as_usual] in E. apply T in E as [E ->]. cbn [n_store n_healthy]. rewrite andb_true_r. auto.
    + apply T in E as [E ->]. cbn [n_store n_healthy]. rewrite andb_false_r. split; [reflexivity|]. right. split; [reflexivity|].
      destruct (finish_failed _ _ _ _ _ _ _ _ F E eq_refl eq_refl eq_refl eq_refl) as (S & P & Q). split; [exact S|]. split; [exact P|].
      destruct Q as [Q | (Q & o' & G & H)]; [now left|]. right. split; [exact Q|]. rewrite G. apply H; reflexivity.
  - unfold with_outcome in E. cbn [run_request]. unfold run_delete. destruct (remove_cases (writes m) s now e 0) as [X | [X _]]; rewrite X in E.
    + apply T in E as [E ->]. cbn [n_store n_healthy]. rewrite andb_true_r. auto.
    + apply T in E as [E ->]. cbn [n_store n_healthy]. rewrite andb_false_r. split; [reflexivity|]. right. split; [reflexivity|].
      cbn in E. injection E as <-. cbn. auto.
  - unfold with_outcome in E. cbn [run_request]. unfold run_touch. destruct (set_cases (writes m) s now e _ usual_touch) as [[X _] | (o & X & F)]; rewrite X in E.
    + destruct (set s now e behavior_touch) as [o|]; [|discriminate E]. cbn [as_usual] in E. apply T in E as [E ->]. cbn [n_store n_healthy]. rewrite andb_true_r. auto.
    + apply T in E as [E ->]. cbn [n_store n_healthy]. rewrite andb_false_r. split; [reflexivity|]. right. split; [reflexivity|].
      assert (A1 : forall r, is_stored r = false -> (if beq ident (s2b "gat") && is_stored r then print_response response_get (o_entry o) else answer_line r) = answer_line r)
        by (intros r ->; rewrite andb_false_r; reflexivity).
      destruct (finish_failed _ _ _ _ _ _ _ _ F E eq_refl eq_refl (A1 result_not_stored eq_refl) (A1 result_not_found eq_refl)) as (S & P & Q). split; [exact S|]. split; [exact P|].
      destruct Q as [Q | (Q & o' & G & H)]; [now left|]. right. split; [exact Q|]. rewrite G. apply H; cbn [is_stored]; rewrite andb_false_r; reflexivity.
  - unfold with_outcome in E. cbn [run_request]. unfold run_incr. destruct (incr_cases (writes m) s now e v (beq ident (s2b "incr"))) as [[X _] | (o & X & F)]; rewrite X in E.
    + destruct (incr s now e v (beq ident (s2b "incr")) 0) as [o|]; [|discriminate E]. cbn [as_usual] in E. apply T in E as [E ->]. cbn [n_store n_healthy]. rewrite andb_true_r. auto.
    + apply T in E as [E ->]. cbn [n_store n_healthy]. rewrite andb_false_r. split; [reflexivity|]. right. split; [reflexivity|].
      destruct (finish_failed _ _ _ _ _ _ _ _ F E eq_refl eq_refl eq_refl eq_refl) as (S & P & Q). split; [exact S|]. split; [exact P|].
      destruct Q as [Q | (Q & o' & G & H)]; [now left|]. right. split; [exact Q|]. rewrite G. apply H; reflexivity.
Qed.

(** A request that a database in order would carry out. *)
Lemma serve_refused m now n r p k : key_of r = Some k -> writes m k = false -> run_request now (n_store n) r = Ok p -> p_forward p <> None ->
  serve m now n r = Ok (mkReply (n_store n) io_error None, mkNode (n_store n) false).
Proof.
  destruct n as [s h]. cbn [n_store]. intros K W E F.
  assert (G : forall o done ident answer, finish o done ident answer = Ok p -> exists r, o_res o = Some r /\ done r = true /\ (o_ret o <? 0)%Z = false).
  { intros o done ident answer. unfold finish. destruct (o_ret o <? 0)%Z; [intro X; injection X as <-; cbn in F; congruence|]. destruct (o_res o) as [r0|]; [|discriminate].
    intro X. injection X as <-. exists r0. cbn in F. destruct (done r0); [auto|congruence]. }
  assert (B' : forall o good e, failed s e o good -> (forall o', good = Some o' -> exists x, o_res o' = Some x /\ is_stored x = true) -> forall done ident answer,
     told (mkNode s h) (finish o done ident answer) true = Ok (mkReply s io_error None, mkNode s false)).
  { intros o good e Fa H done ident answer. pose proof Fa as [S [R | (o' & r1 & Go & _ & _ & _ & X' & Y & _)]].
    - unfold told, finish. rewrite R, S. cbn. rewrite andb_false_r. reflexivity.
    - destruct (H o' Go) as (x & Hx & Hs). rewrite X' in Hx. injection Hx as <-. destruct Y as [-> | ->]; discriminate Hs. }
  destruct r as [ident e|e|ident e|ident e v|ident keys|w|nr|nr|w]; try discriminate K; injection K as <-; cbn [serve n_store]; cbn [run_request] in E.
  - unfold run_store in E. destruct (set s now e (store_behavior ident)) as [o|] eqn:S; [|discriminate E]. destruct (G _ _ _ _ E) as (x & Hx & Hd & _).
    unfold with_outcome. destruct (set_cases (writes m) s now e _ (usual_store ident)) as [[X O] | (o1 & X & Fa)]; rewrite X.
    + destruct O as [O|O]; [congruence|]. rewrite (O o x S Hx) in Hd. discriminate Hd.
    + apply (B' _ _ _ Fa). intros o' Ho. exists x. split; [congruence|exact Hd].
  - unfold run_delete in E. destruct (G _ _ _ _ E) as (x & Hx & Hd & _). unfold with_outcome.
    unfold remove_f. unfold remove in Hx. destruct (get_header s (e_key e) (empty_entry [])) as [cur ex].
    destruct (negb (has 0 behavior_skip_version) && _ && _); [cbn in Hx; injection Hx as <-; discriminate Hd|].
    destruct (negb ex); [cbn in Hx; injection Hx as <-; discriminate Hd|]. rewrite W. cbn. rewrite andb_false_r. reflexivity.
  - unfold run_touch in E. destruct (set s now e behavior_touch) as [o|] eqn:S; [|discriminate E]. destruct (G _ _ _ _ E) as (x & Hx & Hd & _).
    unfold with_outcome. destruct (set_cases (writes m) s now e _ usual_touch) as [[X O] | (o1 & X & Fa)]; rewrite X.
    + destruct O as [O|O]; [congruence|]. rewrite (O o x S Hx) in Hd. discriminate Hd.
    + apply (B' _ _ _ Fa). intros o' Ho. exists x. split; [congruence|exact Hd].
  - unfold run_incr in E. destruct (incr s now e v (beq ident (s2b "incr")) 0) as [o|] eqn:S; [|discriminate E]. destruct (G _ _ _ _ E) as (x & Hx & Hd & _).
    unfold with_outcome. destruct (incr_cases (writes m) s now e v (beq ident (s2b "incr"))) as [[X O] | (o1 & X & Fa)]; rewrite X.
    + destruct O as [O|O]; [congruence|]. rewrite (O o x S Hx) in Hd. discriminate Hd.
    + apply (B' _ _ _ Fa). intros o' Ho. exists x. split; [congruence|exact Hd].
Qed.
