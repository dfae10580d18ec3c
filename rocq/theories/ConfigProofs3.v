(** Lemmas on the list of index servers, on 'show variables' and on the loop that notices SIGHUP. *)
From Coq Require Import List NArith ZArith Bool String Lia.
From Coq Require Import ZifyBool ZifyNat ZifyN.
From Verif Require Import Base BaseLemmas TextModel TextProofs2 ConfigModel ConfigSpec ConfigProofs.
Import ListNotations.
Local Open Scope string_scope.
Local Open Scope N_scope.
Local Open Scope list_scope.

(** ** Listing index servers *)
Lemma name_chars n : server_name_ok n -> Forall (fun c => is_name_char c = true) n.
Proof.
  intros [_ F]. induction F as [|c n (H1 & H2 & H3 & H4) _ IH]; constructor; [|exact IH].
  unfold is_name_char, is_blank. lia.
Qed.

Definition separated (s : bytes) : Prop := s = [] \/ exists t, s = 44 :: t.

(** a server at the front, after an optional comma and blanks *)
Lemma match_server n p rest : server_name_ok n -> separated rest ->
  forall blanks, Forall (fun c => is_blank c = true) blanks ->
  match_here (blanks ++ n ++ s2b ":" ++ dec p ++ rest) = Some (n, dec p, rest)
  /\ match_here (44 :: blanks ++ n ++ s2b ":" ++ dec p ++ rest) = Some (n, dec p, rest).
Proof.
  intros Hn Hr blanks Hb.
  assert (K : forall s, snd (span is_blank s) = n ++ s2b ":" ++ dec p ++ rest ->
    (let s := snd (span is_blank s) in
     let '(name, s) := span is_name_char s in
     match name, s with
     | _ :: _, c :: t =>
         if N.eqb c 58 then match span is_digit t with ([], _) => None | (digits, t) => Some (name, digits, t) end
         else None
     | _, _ => None
     end) = Some (n, dec p, rest)).
  { intros s ->. cbv zeta. rewrite span_prefix; [|apply name_chars; exact Hn|reflexivity].
    destruct n as [|c n]; [destruct Hn; congruence|]. change (s2b ":" ++ dec p ++ rest) with (58 :: dec p ++ rest).
    cbv beta iota. change (58 =? 58) with true. cbv iota.
    rewrite span_prefix; [|apply dec_digits|destruct Hr as [-> | [t ->]]; [trivial|reflexivity]].
    pose proof (dec_nonnil p). destruct (dec p); [congruence|reflexivity]. }
  assert (B : snd (span is_blank (blanks ++ n ++ s2b ":" ++ dec p ++ rest)) = n ++ s2b ":" ++ dec p ++ rest).
  { rewrite span_prefix; [reflexivity|exact Hb|]. pose proof (name_chars n Hn) as C.
    destruct n as [|c n]; [destruct Hn; congruence|]. cbn. inversion C as [|? ? C1 _]; subst.
    unfold is_name_char in C1. destruct (is_blank c); [|reflexivity]. rewrite orb_true_r in C1. discriminate. }
  split.
  - unfold match_here. 
    assert (E : (match blanks ++ n ++ s2b ":" ++ dec p ++ rest with
                 | c :: t => if c =? 44 then t else blanks ++ n ++ s2b ":" ++ dec p ++ rest
                 | [] => blanks ++ n ++ s2b ":" ++ dec p ++ rest
                 end) = blanks ++ n ++ s2b ":" ++ dec p ++ rest).
    { pose proof (name_chars n Hn) as C. destruct blanks as [|b blanks].
      - destruct n as [|c n]; [destruct Hn; congruence|]. cbn [app]. inversion C as [|? ? C1 _]; subst.
        unfold is_name_char in C1. destruct (c =? 44); [discriminate|reflexivity].
      - cbn [app]. inversion Hb as [|? ? C1 _]; subst. unfold is_blank in C1.
        destruct (b =? 44) eqn:E; [|reflexivity]. exfalso. apply N.eqb_eq in E. subst b. discriminate. }
    rewrite E. apply K. exact B.
  - unfold match_here. change (44 =? 44) with true. cbv iota. apply K. exact B.
Qed.

Lemma search_here s m : match_here s = Some m -> search s = Some m.
Proof. destruct s; cbn [search]; intros ->; reflexivity. Qed.

Lemma lex_port p : (Z.of_N p < 2 ^ 31)%Z -> lex_i32 (dec p) = Ok (Z.of_N p).
Proof.
  intros H. unfold lex_i32. rewrite lex_i64_dec by (unfold i64_max; lia). cbn [bind].
  replace ((-2147483648 <=? Z.of_N p) && (Z.of_N p <=? 2147483647))%Z with true by lia. reflexivity.
Qed.

Lemma listing_cons blanks n p l : l <> [] ->
  listing blanks ((n, p) :: l) = n ++ s2b ":" ++ dec p ++ 44 :: blanks ++ listing blanks l.
Proof. destruct l as [|[m q] l]; [congruence|]. intros _. reflexivity. Qed.

Lemma search_nil : search [] = None.
Proof. reflexivity. Qed.

Lemma scan_listing blanks : Forall (fun c => is_blank c = true) blanks -> forall l fuel, servers_ok l ->
  (List.length l < fuel)%nat ->
  scan fuel (listing blanks l) = Some (map (fun s => (fst s, Z.of_N (snd s))) l)
  /\ scan fuel (44 :: blanks ++ listing blanks l) = Some (map (fun s => (fst s, Z.of_N (snd s))) l)
     \/ l = [].
Proof.
  intros Hb. induction l as [|[n p] l IH]; intros fuel H F; [auto|left].
  apply List.Forall_cons_iff in H as [[Hn Hp] H]. cbn [fst snd] in *.
  destruct fuel as [|fuel]; [inversion F|]. cbn [List.length] in F.
  destruct l as [|s l].
  - pose proof (match_server n p [] Hn (or_introl eq_refl)) as M. rewrite app_nil_r in M.
    assert (E : forall s, match_here s = Some (n, dec p, []) -> scan (S fuel) s = Some [(n, Z.of_N p)]).
    { intros s E. cbn [scan]. rewrite (search_here _ _ E), lex_port by exact Hp.
      destruct fuel; reflexivity. }
    cbn [listing map fst snd]. split; apply E.
    + apply (M [] ltac:(constructor)).
    + apply (M blanks Hb).
  - assert (Ne : s :: l <> []) by discriminate. rewrite (listing_cons blanks n p _ Ne).
    pose proof (match_server n p (44 :: blanks ++ listing blanks (s :: l)) Hn (or_intror (ex_intro _ _ eq_refl))) as M.
    destruct (IH fuel H ltac:(cbn [List.length] in *; lia)) as [[_ I]|I]; [|congruence].
    assert (E : forall x, match_here x = Some (n, dec p, 44 :: blanks ++ listing blanks (s :: l)) ->
      scan (S fuel) x = Some ((n, Z.of_N p) :: map (fun s => (fst s, Z.of_N (snd s))) (s :: l))).
    { intros x E. cbn [scan]. rewrite (search_here _ _ E), lex_port by exact Hp. rewrite I. reflexivity. }
    cbn [map fst snd]. split; apply E.
    + apply (M [] ltac:(constructor)).
    + apply (M blanks Hb).
Qed.

Lemma listing_length blanks l : servers_ok l -> (List.length l <= List.length (listing blanks l))%nat.
Proof.
  induction l as [|[n p] l IH]; intros H; [cbn; lia|]. apply List.Forall_cons_iff in H as [[Hn _] H].
  destruct l as [|s l].
  - cbn [listing List.length]. rewrite !app_length. cbn. lia.
  - rewrite listing_cons by discriminate. specialize (IH H). rewrite !app_length. cbn [List.length] in *.
    rewrite app_length. destruct n; [destruct Hn; cbn in *; congruence|]. cbn [List.length]. lia.
Qed.

Lemma servers_read blanks l vm : Forall (fun c => is_blank c = true) blanks -> servers_ok l -> l <> [] ->
  vm IndexServers = Some (Str (listing blanks l)) -> vm IndexServerName = None -> vm IndexServerPort = None ->
  index_servers vm = Some (map (fun s => (fst s, Z.of_N (snd s))) l).
Proof.
  intros Hb H Ne E1 E2 E3. unfold index_servers. rewrite E1, E2, E3.
  pose proof (listing_length blanks l H) as L.
  destruct (scan_listing blanks Hb l (S (List.length (listing blanks l))) H ltac:(lia)) as [[-> _]|E]; [|congruence].
  destruct l as [|s l]; [congruence|]. reflexivity.
Qed.

(** ** 'show variables' *)
Definition plain_line (s : bytes) : Prop := Forall (fun c => c <> 0 /\ c <> 10 /\ c <> 13) s.

Lemma lines_go_line x rest : plain_line x -> forall cur,
  lines_go cur (x ++ crlf ++ rest) = (rev cur ++ x) :: lines_go [] rest.
Proof.
  intros P. induction P as [|c x (H0 & H1 & H2) P IH]; intros cur.
  - cbn. rewrite app_nil_r. reflexivity.
  - cbn [app]. assert (E : exists d t, x ++ crlf ++ rest = d :: t)
      by (destruct x; [exists 13, (10 :: rest)|eexists _, _]; reflexivity).
    destruct E as (d & t & E). cbn [lines_go]. rewrite E.
    replace (c =? 13) with false by (symmetry; apply N.eqb_neq; exact H2). cbn [andb].
    rewrite <- E, IH. cbn [rev]. rewrite <- app_assoc. reflexivity.
Qed.

Lemma cstr_line x : plain_line x -> cstr x = x.
Proof.
  induction 1 as [|c x (H0 & _) P IH]; [reflexivity|]. 
  destruct c as [|p]; [congruence|]. cbn [cstr]. rewrite IH. reflexivity.
Qed.
Lemma cstr_nonzero x : Forall (fun c => c <> 0) x -> cstr x = x.
Proof.
  induction 1 as [|c x H0 P IH]; [reflexivity|]. destruct c as [|p]; [congruence|]. cbn [cstr]. rewrite IH. reflexivity.
Qed.
Lemma join_nonzero l : Forall plain_line l -> Forall (fun c => c <> 0) (join l).
Proof.
  induction 1 as [|x l P F IH]; [constructor|].
  assert (P0 : Forall (fun c => c <> 0) x) by (eapply List.Forall_impl; [|exact P]; cbn; tauto).
  destruct l as [|y l]; [exact P0|].
  change (join (x :: y :: l)) with (x ++ crlf ++ join (y :: l)).
  apply List.Forall_app. split; [exact P0|]. apply List.Forall_app. split; [|exact IH].
  repeat constructor; discriminate.
Qed.

Lemma lines_join l rest : l <> [] -> Forall plain_line l ->
  lines_of (join l ++ crlf ++ rest) = l ++ lines_of rest.
Proof.
  intros Ne F. induction F as [|x l P F IH]; [congruence|].
  destruct l as [|y l].
  - cbn [join app]. unfold lines_of. rewrite lines_go_line by exact P. reflexivity.
  - change (join (x :: y :: l)) with (x ++ crlf ++ join (y :: l)). rewrite <- !app_assoc.
    unfold lines_of. rewrite lines_go_line by exact P. cbn [rev app]. f_equal. apply IH. discriminate.
Qed.

Lemma show_lines i : Forall plain_line (node_lines i) ->
  lines_of (show_variables i) = node_lines i ++ [s2b "END"].
Proof.
  intros F. unfold show_variables. rewrite cstr_nonzero by (apply join_nonzero; exact F).
  rewrite lines_join; [reflexivity|discriminate|exact F].
Qed.

Lemma digit_plain c : is_digit c = true -> c <> 0 /\ c <> 10 /\ c <> 13.
Proof. rewrite is_digit_range. lia. Qed.
Lemma dec_plain n : plain_line (dec n).
Proof. eapply List.Forall_impl; [|apply dec_digits]. intros c. apply digit_plain. Qed.
Lemma decZ_plain z : plain_line (decZ z).
Proof.
  unfold decZ. destruct (z <? 0)%Z; [constructor; [lia|]|]; apply dec_plain.
Qed.
Lemma decZ_head z : exists c t, decZ z = c :: t /\ c <> 32.
Proof.
  unfold decZ. destruct (z <? 0)%Z; [exists 45; eexists; split; [reflexivity|lia]|].
  destruct (dec_head (Z.to_N z)) as (c & d & E & H). exists c, d. split; [exact E|lia].
Qed.

Lemma print_plain b v : fits_line v -> plain_line (print b v).
Proof.
  destruct v as [z|s|f]; cbn [print fits_line].
  - intros _. apply decZ_plain.
  - intros [H _]. exact H.
  - intros _. destruct b, f; repeat constructor; discriminate.
Qed.

Definition label_text (s : bytes) : bool := forallb (fun c => negb (c =? 0) && negb (c =? 10) && negb (c =? 13)) s.
Lemma label_plain s : label_text s = true -> plain_line s.
Proof.
  intros H. apply List.Forall_forall. intros c Hc. unfold label_text in H. rewrite forallb_forall in H.
  specialize (H c Hc). cbn beta in H. lia.
Qed.

Lemma server_plain s : server_name_ok (fst s) -> Forall (fun c => c <> 0) (fst s) -> plain_line (print_server s).
Proof.
  intros [_ H] Z. unfold print_server. apply List.Forall_app. split.
  - apply List.Forall_forall. intros c Hc. rewrite List.Forall_forall in H, Z. specialize (H c Hc). specialize (Z c Hc).
    cbn beta in *. lia.
  - constructor; [cbv beta; vm_compute; repeat split; discriminate|]. apply decZ_plain.
Qed.

(** the members fit on their lines *)
Lemma servers_line_plain l :
  Forall (fun s => server_name_ok (fst s) /\ Forall (fun c => c <> 0) (fst s)) l -> plain_line (servers_line l).
Proof.
  intros F. unfold servers_line. apply List.Forall_app. split; [apply label_plain; reflexivity|].
  destruct F as [|s l [H1 H2] F]; [constructor|]. apply List.Forall_app. split; [apply server_plain; assumption|].
  induction F as [|t l [H3 H4] F IH]; [constructor|]. cbn [map List.concat].
  apply List.Forall_app. split; [|exact IH]. apply List.Forall_app.
  split; [apply label_plain; reflexivity|apply server_plain; assumption].
Qed.

Lemma rows_plain i : shows_well i -> Forall plain_line (node_lines i).
Proof.
  intros [H S]. unfold node_lines.
  assert (L : forallb (fun r => match r with Row t _ _ => label_text (s2b t) | ServersRow => true end) node_rows = true)
    by reflexivity.
  apply List.Forall_forall. intros x Hx. apply in_map_iff in Hx as (r & <- & Hr).
  rewrite forallb_forall in L. specialize (L r Hr). destruct r as [t b o|]; cbn [row_line].
  - apply List.Forall_app. split; [apply label_plain; exact L|apply print_plain; apply H].
  - apply servers_line_plain. exact S.
Qed.

Lemma drop_blanks_print b v : fits_line v -> drop_blanks (print b v) = print b v.
Proof.
  intros F. destruct v as [z|s|f]; cbn [print].
  - destruct (decZ_head z) as (c & t & -> & H). cbn [drop_blanks].
    replace (c =? 32) with false by (symmetry; apply N.eqb_neq; exact H). reflexivity.
  - destruct s as [|c s]; [reflexivity|]. cbn [drop_blanks]. destruct (c =? 32) eqn:E; [|reflexivity].
    apply N.eqb_eq in E. subst c. destruct F as [_ F]. destruct (F s eq_refl).
  - destruct b, f; reflexivity.
Qed.

(** what the client finds: the first row whose label it is *)
Fixpoint find_row (label : string) (l : list shown) : option shown :=
  match l with
  | [] => None
  | r :: l =>
      let t := match r with Row t _ _ => t | ServersRow => "index_server(s):        " end in
      match strip_prefix (s2b label ++ s2b ":") (s2b t) with Some _ => Some r | None => find_row label l end
  end.
Definition blanks_after (label : string) (t : string) : bool :=
  match strip_prefix (s2b label ++ s2b ":") (s2b t) with
  | Some v => forallb (fun c => c =? 32) v
  | None => false
  end.
(** the label is found inside the fixed text of a row or not at all *)
Definition decided (label : string) (t : string) : bool :=
  match strip_prefix (s2b label ++ s2b ":") (s2b t) with
  | Some _ => true
  | None =>
      negb (beq (firstn (Nat.min (List.length (s2b label ++ s2b ":")) (List.length (s2b t))) (s2b label ++ s2b ":"))
                (firstn (Nat.min (List.length (s2b label ++ s2b ":")) (List.length (s2b t))) (s2b t)))
  end.

Lemma strip_some p s v x : strip_prefix p s = Some v -> strip_prefix p (s ++ x) = Some (v ++ x).
Proof.
  revert s. induction p as [|c p IH]; intros s; cbn [strip_prefix].
  - intros [= ->]. reflexivity.
  - destruct s as [|d s]; [discriminate|]. cbn [app]. destruct (c =? d); [apply IH|discriminate].
Qed.
Lemma strip_none p : forall s x,
  beq (firstn (Nat.min (List.length p) (List.length s)) p) (firstn (Nat.min (List.length p) (List.length s)) s) = false ->
  strip_prefix p (s ++ x) = None.
Proof.
  induction p as [|c p IH]; intros s x; [discriminate|]. destruct s as [|d s]; [discriminate|].
  cbn [List.length Nat.min firstn beq app strip_prefix]. destruct (c =? d); [|reflexivity]. apply IH.
Qed.
Lemma drop_blanks_app v x : forallb (fun c => c =? 32) v = true -> drop_blanks (v ++ x) = drop_blanks x.
Proof.
  induction v as [|c v IH]; [reflexivity|]. cbn [forallb app drop_blanks]. destruct (c =? 32); [exact IH|discriminate].
Qed.

Lemma look_up_row i label l tail b o t :
  forallb (fun r => decided label (match r with Row t _ _ => t | ServersRow => "index_server(s):        " end)) l = true ->
  find_row label l = Some (Row t b o) -> blanks_after label t = true -> fits_line (field i o) ->
  look_up (s2b label) (map (row_line i) l ++ tail) = Some (print b (field i o)).
Proof.
  intros D Fr Bl F. induction l as [|r l IH]; [discriminate|].
  cbn [forallb] in D. apply andb_true_iff in D as [D1 D2]. cbn [find_row] in Fr. cbn [map app look_up].
  assert (E : exists y, row_line i r = s2b (match r with Row t _ _ => t | ServersRow => "index_server(s):        " end) ++ y
                 /\ (forall t b o, r = Row t b o -> y = print b (field i o)))
    by (destruct r; eexists; (split; [reflexivity|]); [intros ? ? ? [= -> -> ->]; reflexivity|discriminate]).
  destruct E as (y & -> & Ey). unfold decided in D1.
  destruct (strip_prefix (s2b label ++ s2b ":") (s2b match r with Row t _ _ => t | ServersRow => "index_server(s):        " end)) as [v|] eqn:Sp.
  - rewrite (strip_some _ _ _ _ Sp). injection Fr as ->. rewrite (Ey _ _ _ eq_refl).
    unfold blanks_after in Bl. cbv iota in Sp. rewrite Sp in Bl. rewrite drop_blanks_app by exact Bl.
    rewrite drop_blanks_print by exact F. reflexivity.
  - rewrite strip_none; [apply IH; assumption|]. apply negb_true_iff. exact D1.
Qed.

Definition row_check (o : opt) : bool :=
  match label_of o with
  | None => true
  | Some label =>
      forallb (fun r => decided label (match r with Row t _ _ => t | ServersRow => "index_server(s):        " end)) node_rows
      && match find_row label node_rows with
         | Some (Row t b o') =>
             blanks_after label t && (if opt_eq_dec o o' then true else false)
             && Bool.eqb b (if opt_eq_dec o ClusterRepl then false else true)
         | _ => false
         end
  end.
Lemma rows_checked o : row_check o = true.
Proof. destruct o; vm_compute; reflexivity. Qed.

Lemma shown_value i o label : shows_well i -> label_of o = Some label ->
  exists s, look_up (s2b label) (lines_of (show_variables i)) = Some s /\ reads o (field i o) s.
Proof.
  intros W E. pose proof (rows_checked o) as C. unfold row_check in C. rewrite E in C.
  apply andb_true_iff in C as [C1 C2]. destruct (find_row label node_rows) as [[t b o'|]|] eqn:Fr; try discriminate.
  apply andb_true_iff in C2 as [C2 C4]. apply andb_true_iff in C2 as [C2 C3].
  destruct (opt_eq_dec o o') as [<-|]; [|discriminate]. apply eqb_prop in C4. subst b.
  rewrite show_lines by (apply rows_plain; exact W). unfold node_lines.
  rewrite (look_up_row i label node_rows [s2b "END"] _ o t C1 Fr C2) by apply W.
  eexists. split; [reflexivity|]. destruct (field i o); cbn [reads print]; try reflexivity.
  destruct (opt_eq_dec o ClusterRepl); reflexivity.
Qed.

(** the line of the index servers reads as a list that the option understands *)
Lemma servers_text l :
  match l with
  | [] => []
  | s :: l => print_server (fst s, Z.of_N (snd s)) ++ List.concat (map (fun s => s2b ", " ++ print_server s) (map (fun s => (fst s, Z.of_N (snd s))) l))
  end = listing [32] l.
Proof.
  destruct l as [|[n p] l]; [reflexivity|]. revert n p.
  induction l as [|[m q] l IH]; intros n p.
  - cbn [map List.concat listing fst snd]. rewrite app_nil_r. unfold print_server. cbn [fst snd].
    unfold decZ. replace (Z.of_N p <? 0)%Z with false by lia. rewrite N2Z.id. reflexivity.
  - rewrite listing_cons by discriminate. rewrite <- IH. cbn [map List.concat fst snd].
    unfold print_server at 1. cbn [fst snd]. unfold decZ at 1.
    replace (Z.of_N p <? 0)%Z with false by lia. rewrite N2Z.id.
    rewrite <- !app_assoc. reflexivity.
Qed.

Lemma look_up_servers_go i label t l tail : t = "index_server(s):        " -> label = "index_server(s)" ->
  forallb (fun r => decided label (match r with Row t _ _ => t | ServersRow => "index_server(s):        " end)) l = true ->
  find_row label l = Some ServersRow ->
  look_up (s2b label) (map (row_line i) l ++ tail)
  = Some (drop_blanks match servers i with
          | [] => []
          | s :: l => print_server s ++ List.concat (map (fun s => s2b ", " ++ print_server s) l)
          end).
Proof.
  intros Et El D Fr. induction l as [|r l IH]; [discriminate|].
  cbn [forallb] in D. apply andb_true_iff in D as [D1 D2]. cbn [find_row] in Fr. cbn [map app look_up].
  destruct r as [t' b o|].
  - cbn [row_line]. unfold decided in D1. cbv iota in Fr.
    destruct (strip_prefix (s2b label ++ s2b ":") (s2b t')) as [v|]; [discriminate|].
    rewrite strip_none; [apply IH; assumption|]. apply negb_true_iff. exact D1.
  - subst label. cbn [row_line]. unfold servers_line.
    rewrite (strip_some (s2b "index_server(s)" ++ s2b ":") (s2b "index_server(s):        ") (s2b "        ")) by reflexivity.
    rewrite drop_blanks_app by reflexivity. reflexivity.
Qed.

Lemma name_not_blank n : server_name_ok n -> drop_blanks n = n.
Proof.
  intros [_ H]. destruct H as [|c n (_ & _ & H & _) _]; [reflexivity|]. cbn [drop_blanks].
  replace (c =? 32) with false by (symmetry; apply N.eqb_neq; exact H). reflexivity.
Qed.

Lemma shown_servers i l : shows_well i -> servers i = map (fun s => (fst s, Z.of_N (snd s))) l ->
  look_up (s2b "index_server(s)") (lines_of (show_variables i)) = Some (listing [32] l).
Proof.
  intros W E. rewrite show_lines by (apply rows_plain; exact W). unfold node_lines.
  rewrite (look_up_servers_go i "index_server(s)" "index_server(s):        ") by reflexivity.
  rewrite E. rewrite <- servers_text. destruct l as [|s l]; [reflexivity|].
  cbn [map]. f_equal. destruct W as [_ W]. rewrite E in W. cbn [map] in W.
  apply List.Forall_cons_iff in W as [[W _] _]. cbn [fst] in W. unfold print_server at 1 3. cbn [fst snd].
  destruct (fst s) as [|c n] eqn:En; [destruct W; congruence|]. destruct W as [_ W].
  apply List.Forall_cons_iff in W as [(_ & _ & H & _) _]. cbn [app drop_blanks].
  replace (c =? 32) with false by (symmetry; apply N.eqb_neq; exact H). reflexivity.
Qed.

(** ** The loop *)
Lemma hup_kept hs : forall s latest, hup_in_reload s hs = false ->
  (latest <= loaded s \/ asked s = true) -> latest <= file_now s -> loaded s <= file_now s ->
  (reloading s = true -> latest <= loaded s) ->
  let s' := run_all s hs in
  (hup_version s latest hs <= loaded s' \/ asked s' = true)
  /\ (reloading s' = true -> hup_version s latest hs <= loaded s') /\ loaded s' <= file_now s'
  /\ hup_version s latest hs <= file_now s'.
Proof.
  induction hs as [|h hs IH]; intros s latest H P Q R W; cbn [run_all hup_version].
  - auto.
  - cbn [hup_in_reload] in H. apply orb_false_iff in H as [H1 H2]. apply IH; [exact H2|..].
    + destruct h; cbn [happen]; unfold run_loop.
      * exact P.
      * right. reflexivity.
      * destruct s as [[] [] f l]; cbn in *; try (left; lia); auto.
    + destruct h; cbn [happen file_now]; unfold run_loop; [lia|lia|].
      destruct s as [[] [] f l]; cbn in *; lia.
    + destruct h; cbn [happen file_now loaded]; unfold run_loop; [lia|lia|].
      destruct s as [[] [] f l]; cbn in *; lia.
    + destruct h; cbn [happen reloading at_ loaded].
      * exact W.
      * unfold reloading in *. cbn. intros C. rewrite C in H1. discriminate.
      * unfold run_loop. destruct s as [[] [] f l]; cbn in *; try discriminate; intros _; lia.
Qed.
