(** Reading addresses: lemmas for C77. *)
From Coq Require Import NArith ZArith List Bool String Lia ZifyBool ZifyNat ZifyN.
From Verif Require Import Base BaseLemmas TextModel AddressModel AddressSpec.
Import ListNotations.
Local Open Scope N_scope.

(** ** The first way to match that a continuation accepts *)
Fixpoint pick {X} (k : bytes -> caps -> option X) (l : list (bytes * caps)) : option X :=
  match l with
  | [] => None
  | (t, c) :: l => match k t c with Some y => Some y | None => pick k l end
  end.
Definition go {X} (r : re) (s : bytes) (c : caps) (k : bytes -> caps -> option X) : option X := pick k (run r s c).
Definition fin (t : bytes) (c : caps) : option caps := match t with [] => Some c | _ => None end.

Lemma regex_go r s : regex_match r s = go r s [] fin.
Proof.
  unfold regex_match, go. induction (run r s []) as [|[t c] l IH]; [reflexivity|].
  cbn. destruct t; [reflexivity|]. exact IH.
Qed.
Lemma pick_app {X} (k : bytes -> caps -> option X) a b : pick k (a ++ b) = match pick k a with Some y => Some y | None => pick k b end.
Proof. induction a as [|[t c] a IH]; [reflexivity|]. cbn. destruct (k t c); [reflexivity|]. exact IH. Qed.
Lemma pick_ext {X} (k k' : bytes -> caps -> option X) l : (forall t c, k t c = k' t c) -> pick k l = pick k' l.
Proof. intro H. induction l as [|[t c] l IH]; [reflexivity|]. cbn. rewrite H, IH. reflexivity. Qed.
Lemma go_ext {X} r s c (k k' : bytes -> caps -> option X) : (forall t c, k t c = k' t c) -> go r s c k = go r s c k'.
Proof. apply pick_ext. Qed.
Lemma go_seq {X} a b s c (k : bytes -> caps -> option X) : go (Seq a b) s c k = go a s c (fun t c' => go b t c' k).
Proof.
  unfold go. cbn [run]. induction (run a s c) as [|[t c'] l IH]; [reflexivity|].
  cbn [flat_map pick fst snd]. rewrite pick_app, IH. reflexivity.
Qed.
Lemma go_opt {X} r s c (k : bytes -> caps -> option X) :
  go (Opt r) s c k = match go r s c k with Some y => Some y | None => k s c end.
Proof. unfold go. cbn [run]. rewrite pick_app. cbn. destruct (pick k (run r s c)); [reflexivity|]. destruct (k s c); reflexivity. Qed.
Lemma go_grp {X} n r s c (k : bytes -> caps -> option X) :
  go (Grp n r) s c k = go r s c (fun t c' => k t ((n, firstn (List.length s - List.length t) s) :: c')).
Proof.
  unfold go. cbn [run]. induction (run r s c) as [|[t c'] l IH]; [reflexivity|].
  cbn [map pick fst snd]. rewrite IH. reflexivity.
Qed.
Lemma go_lit {X} w s c (k : bytes -> caps -> option X) :
  go (Lit w) s c k = match strip w s with Some t => k t c | None => None end.
Proof. unfold go. cbn [run]. destruct (strip w s) as [t|]; [|reflexivity]. cbn. destruct (k t c); reflexivity. Qed.

Fixpoint span (p : N -> bool) (s : bytes) : bytes * bytes :=
  match s with
  | [] => ([], [])
  | x :: t => if p x then (x :: fst (span p t), snd (span p t)) else ([], s)
  end.
Definition stops (p : N -> bool) (s : bytes) : Prop := match s with [] => True | x :: _ => p x = false end.
Lemma span_eq p s : s = fst (span p s) ++ snd (span p s).
Proof. induction s as [|x t IH]; [reflexivity|]. cbn. destruct (p x); cbn; congruence. Qed.
Lemma span_all p s : Forall (fun x => p x = true) (fst (span p s)).
Proof. induction s as [|x t IH]; [constructor|]. cbn. destruct (p x) eqn:E; cbn; constructor; auto. Qed.
Lemma span_stops p s : stops p (snd (span p s)).
Proof. induction s as [|x t IH]; [exact Logic.I|]. cbn. destruct (p x) eqn:E; cbn; auto. Qed.
Lemma span_app p a b : Forall (fun x => p x = true) a -> stops p b -> span p (a ++ b) = (a, b).
Proof.
  intros Ha Hb. induction Ha as [|x a Hx Ha IH].
  - destruct b as [|y b]; [reflexivity|]. cbn in *. rewrite Hb. reflexivity.
  - cbn. rewrite Hx, IH. reflexivity.
Qed.
Lemma go_star {X} p s c (k : bytes -> caps -> option X) : (forall x t, p x = true -> k (x :: t) c = None) ->
  go (Star p) s c k = k (snd (span p s)) c.
Proof.
  intro F. unfold go. cbn [run]. induction s as [|x t IH].
  - cbn. destruct (k [] c); reflexivity.
  - cbn. destruct (p x) eqn:E.
    + rewrite map_app, pick_app, IH. cbn. rewrite (F x t E). destruct (k (snd (span p t)) c); reflexivity.
    + cbn. destruct (k (x :: t) c); reflexivity.
Qed.
Lemma go_star_first {X} p s c (k : bytes -> caps -> option X) y : k (snd (span p s)) c = Some y ->
  go (Star p) s c k = Some y.
Proof.
  unfold go. cbn [run]. induction s as [|x t IH]; intro H.
  - cbn in *. rewrite H. reflexivity.
  - cbn in *. destruct (p x) eqn:E.
    + rewrite map_app, pick_app, (IH H). reflexivity.
    + cbn in *. rewrite H. reflexivity.
Qed.
Lemma go_plus {X} p s c (k : bytes -> caps -> option X) : (forall x t, p x = true -> k (x :: t) c = None) ->
  go (Plus p) s c k = match fst (span p s) with [] => None | _ => k (snd (span p s)) c end.
Proof.
  intro F. destruct s as [|x t]; [reflexivity|]. cbn [span]. unfold go. cbn [run].
  destruct (p x) eqn:E; [|reflexivity]. cbn [fst snd]. exact (go_star p t c k F).
Qed.
Lemma taken (a b : bytes) : firstn (List.length (a ++ b) - List.length b) (a ++ b) = a.
Proof. rewrite app_length. replace (List.length a + List.length b - List.length b)%nat with (List.length a + 0)%nat by lia.
  rewrite firstn_app_2. cbn. apply app_nil_r. Qed.
Lemma taken_span p s : firstn (List.length s - List.length (snd (span p s))) s = fst (span p s).
Proof.
  pose proof (taken (fst (span p s)) (snd (span p s))) as H. rewrite <- span_eq in H. exact H.
Qed.
Lemma none_in l x : none_of l x = true <-> ~ In x l.
Proof.
  unfold none_of. rewrite negb_true_iff. split.
  - intros H I. enough (existsb (N.eqb x) l = true) by congruence. apply existsb_exists. exists x. rewrite N.eqb_refl. auto.
  - intro H. destruct (existsb (N.eqb x) l) eqn:E; [|reflexivity]. apply existsb_exists in E. destruct E as (y & I & Q).
    apply N.eqb_eq in Q. subst y. contradiction.
Qed.

(** ** Path, query and fragment *)
Definition add (n : nat) (o : option bytes) (c : caps) : caps := match o with Some w => (n, w) :: c | None => c end.
Definition after (x : N) (s : bytes) : option bytes := match s with y :: t => if y =? x then Some t else None | [] => None end.
Definition tail_of (s : bytes) : option bytes * option bytes :=
  match after question s with
  | Some t => let (q, b) := span (none_of [hash_sign]) t in (Some q, after hash_sign b)
  | None => (None, None)
  end.
Definition rest_of (s : bytes) : option (bytes * option bytes * option bytes) :=
  match after slash s with
  | Some _ => let (a, b) := span (none_of [question]) s in Some (a, fst (tail_of b), snd (tail_of b))
  | None => None
  end.
Lemma after_strip x s : strip [x] s = after x s.
Proof. destruct s as [|y t]; [reflexivity|]. cbn. rewrite N.eqb_sym. reflexivity. Qed.
Lemma after_some x s t : after x s = Some t <-> s = x :: t.
Proof.
  destruct s as [|y s]; cbn; [split; discriminate|]. destruct (y =? x) eqn:E.
  - apply N.eqb_eq in E. subst y. split; intro H; injection H; congruence.
  - apply N.eqb_neq in E. split; intro H; [discriminate|]. injection H. congruence.
Qed.
Lemma stops_one x s : stops (none_of [x]) s -> s = [] \/ exists t, s = x :: t.
Proof.
  destruct s as [|y t]; cbn; [auto|]. intro H. right. exists t. f_equal. unfold none_of in H. cbn in H.
  rewrite orb_false_r, negb_false_iff in H. apply N.eqb_eq. exact H.
Qed.
Lemma any_all s : span any s = (s, []).
Proof. induction s as [|x t IH]; [reflexivity|]. cbn. rewrite IH. reflexivity. Qed.
Lemma frag_go n s c : s = [] \/ (exists t, s = hash_sign :: t) ->
  go (Opt (Seq (Lit [hash_sign]) (Grp n (Star any)))) s c fin = Some (add n (after hash_sign s) c).
Proof.
  intros [->|[t ->]]; rewrite go_opt, go_seq, go_lit, after_strip; [reflexivity|].
  cbn [after]. rewrite N.eqb_refl, go_grp.
  rewrite (go_star_first any t c _ ((n, t) :: c)); [reflexivity|].
  rewrite any_all. cbn. rewrite Nat.sub_0_r, firstn_all. reflexivity.
Qed.
Lemma tail_go j k s c : s = [] \/ (exists t, s = question :: t) ->
  go (Seq (Opt (Seq (Lit [question]) (Grp j (Star (none_of [hash_sign])))))
          (Opt (Seq (Lit [hash_sign]) (Grp k (Star any))))) s c fin
  = Some (add k (snd (tail_of s)) (add j (fst (tail_of s)) c)).
Proof.
  intros [->|[t ->]]; rewrite go_seq, go_opt, go_seq, go_lit, after_strip.
  - cbn [after]. rewrite (frag_go k [] c) by auto. reflexivity.
  - unfold tail_of. cbn [after]. rewrite N.eqb_refl, go_grp.
    rewrite (go_star_first _ t c _ (add k (after hash_sign (snd (span (none_of [hash_sign]) t))) ((j, fst (span (none_of [hash_sign]) t)) :: c))).
    + destruct (span (none_of [hash_sign]) t) as [q b]. reflexivity.
    + rewrite taken_span. apply frag_go. apply stops_one, span_stops.
Qed.
Lemma body_go i j k s c :
  go (body_re i j k) s c fin
  = match rest_of s with Some (a, q, f) => Some (add k f (add j q ((i, a) :: c))) | None => None end.
Proof.
  unfold body_re. rewrite go_seq, go_grp, go_seq, go_lit, after_strip. unfold rest_of.
  destruct (after slash s) as [t|] eqn:E; [|reflexivity]. apply after_some in E. subst s.
  change (span (none_of [question]) (slash :: t)) with (slash :: fst (span (none_of [question]) t), snd (span (none_of [question]) t)).
  cbn [fst snd].
  apply go_star_first.
  replace (firstn (List.length (slash :: t) - List.length (snd (span (none_of [question]) t))) (slash :: t))
    with (slash :: fst (span (none_of [question]) t)).
  - apply tail_go. apply stops_one, span_stops.
  - symmetry. pose proof (taken (slash :: fst (span (none_of [question]) t)) (snd (span (none_of [question]) t))) as H.
    cbn [app] in H. rewrite <- span_eq in H. exact H.
Qed.
Lemma rest_starts s : rest_of s <> None <-> exists t, s = slash :: t.
Proof.
  unfold rest_of. destruct (after slash s) as [t|] eqn:E.
  - apply after_some in E. destruct (span (none_of [question]) s). split; [eauto|discriminate].
  - split; [congruence|]. intros [t ->]. cbn in E. discriminate.
Qed.

(** ** The server *)
Definition user_of (s : bytes) : option bytes * bytes :=
  let (a, b) := span (none_of [colon; slash; at_sign]) s in
  match after at_sign b with Some t => (Some a, t) | None => (None, s) end.
Definition host_of (s : bytes) : bytes * bytes := span (none_of [colon; at_sign; slash]) s.
(** [None]: a colon without digits behind it *)
Definition digits_of (s : bytes) : option (option bytes * bytes) :=
  match after colon s with
  | Some t => match fst (span is_digit t) with [] => None | d => Some (Some d, snd (span is_digit t)) end
  | None => Some (None, s)
  end.
Definition server_of (s : bytes) : option (option bytes * bytes * option bytes * bytes) :=
  let (us, s1) := user_of s in
  let (h, s2) := host_of s1 in
  match digits_of s2 with Some (d, s3) => Some (us, h, d, s3) | None => None end.

Lemma port_go {X} n s c (k : bytes -> caps -> option X) : (forall x t c, x <> slash -> k (x :: t) c = None) ->
  go (Opt (Seq (Lit [colon]) (Grp n (Plus is_digit)))) s c k
  = match digits_of s with Some (d, t) => k t (add n d c) | None => None end.
Proof.
  intro F. rewrite go_opt, go_seq, go_lit, after_strip. unfold digits_of.
  destruct (after colon s) as [t|] eqn:E; [|reflexivity]. apply after_some in E. subst s.
  rewrite go_grp, go_plus.
  - rewrite taken_span. rewrite (F colon t c) by discriminate.
    destruct (fst (span is_digit t)) as [|x d] eqn:D; [reflexivity|]. cbn [add].
    destruct (k (snd (span is_digit t)) ((n, x :: d) :: c)); reflexivity.
  - intros x t' D. apply F. intros ->. discriminate.
Qed.
Lemma host_go {X} h n s c (k : bytes -> caps -> option X) : (forall x t c, x <> slash -> k (x :: t) c = None) ->
  go (Seq (Grp h (Star (none_of [colon; at_sign; slash]))) (Opt (Seq (Lit [colon]) (Grp n (Plus is_digit))))) s c k
  = match digits_of (snd (host_of s)) with Some (d, t) => k t (add n d ((h, fst (host_of s)) :: c)) | None => None end.
Proof.
  intro F. rewrite go_seq, go_grp, go_star.
  - rewrite port_go by exact F. unfold host_of. rewrite taken_span. reflexivity.
  - intros x t H. rewrite port_go by exact F. apply none_in in H. unfold digits_of.
    destruct (after colon (x :: t)) as [u|] eqn:E.
    + apply after_some in E. injection E as E _. exfalso. apply H. left. auto.
    + apply F. intros ->. apply H. cbn. auto.
Qed.
Lemma server_go {X} u h n s c (k : bytes -> caps -> option X) : (forall x t c, x <> slash -> k (x :: t) c = None) ->
  go (authority_re u h n) s c k
  = match server_of s with Some (us, ho, d, t) => k t (add n d ((h, ho) :: add u us c)) | None => None end.
Proof.
  intro F. unfold authority_re. rewrite go_seq, go_opt.
  assert (G : go (Seq (Grp u (Star (none_of [colon; slash; at_sign]))) (Lit [at_sign])) s c
                (fun t c' => go (Seq (Grp h (Star (none_of [colon; at_sign; slash]))) (Opt (Seq (Lit [colon]) (Grp n (Plus is_digit))))) t c' k)
              = match after at_sign (snd (span (none_of [colon; slash; at_sign]) s)) with
                | Some t => match digits_of (snd (host_of t)) with
                            | Some (d, t') => k t' (add n d ((h, fst (host_of t)) :: (u, fst (span (none_of [colon; slash; at_sign]) s)) :: c))
                            | None => None end
                | None => None end).
  { rewrite go_seq, go_grp, go_star.
    - rewrite go_lit, after_strip, taken_span. destruct (after at_sign _); [|reflexivity]. apply host_go. exact F.
    - intros x t H. rewrite go_lit, after_strip. apply none_in in H. cbn [after].
      destruct (x =? at_sign) eqn:E; [|reflexivity]. apply N.eqb_eq in E. subst x. exfalso. apply H. cbn. auto. }
  rewrite G. clear G. rewrite host_go by exact F. unfold server_of, user_of.
  pose proof (span_eq (none_of [colon; slash; at_sign]) s) as Q.
  pose proof (span_all (none_of [colon; slash; at_sign]) s) as A.
  destruct (span (none_of [colon; slash; at_sign]) s) as [a b]. cbn [fst snd] in *.
  destruct (after at_sign b) as [t|] eqn:E.
  - apply after_some in E. subst b.
    assert (H0 : host_of s = (a, at_sign :: t)).
    { rewrite Q. unfold host_of. apply span_app; [|reflexivity]. eapply Forall_impl; [|exact A]. intros x H. cbn beta in *.
      apply none_in in H. apply none_in. intro I. apply H. cbn in *. tauto. }
    rewrite H0. cbn [fst snd]. change (digits_of (at_sign :: t)) with (Some (@None bytes, at_sign :: t)).
    cbv iota beta.
    rewrite (F at_sign t) by discriminate.
    destruct (host_of t) as [ho s2]. cbn [fst snd]. destruct (digits_of s2) as [[d t']|]; [|reflexivity].
    cbn [add]. destruct (k t' _); reflexivity.
  - destruct (host_of s) as [ho s2]. cbn [fst snd]. destruct (digits_of s2) as [[d t']|]; reflexivity.
Qed.

(** ** The scheme *)
Definition scheme_of (s : bytes) : option (bytes * bytes) :=
  let (a, b) := span (none_of [colon]) s in
  match a, strip scheme_end b with _ :: _, Some t => Some (a, t) | _, _ => None end.
Lemma scheme_go {X} s c (k : bytes -> caps -> option X) :
  go scheme_re s c k = match scheme_of s with Some (a, t) => k t ((1%nat, a) :: c) | None => None end.
Proof.
  unfold scheme_re. rewrite go_seq, go_grp, go_plus.
  - rewrite taken_span, go_lit. unfold scheme_of. destruct (span (none_of [colon]) s) as [a b]. cbn [fst snd].
    destruct a; [reflexivity|]. destruct (strip scheme_end b); reflexivity.
  - intros x t H. rewrite go_lit. apply none_in in H.
    change (strip scheme_end (x :: t)) with (if colon =? x then strip (s2b "//") t else None).
    destruct (colon =? x) eqn:E; [|reflexivity]. apply N.eqb_eq in E. exfalso. apply H. left. exact E.
Qed.

(** ** Whole addresses *)
Definition parsed (s : bytes) : option address :=
  match scheme_of s with
  | None => None
  | Some (sc, t) =>
      match server_of t with
      | None => None
      | Some (us, h, d, t2) =>
          match rest_of t2 with Some (p, q, f) => Some (mkAddress sc us h d p q f) | None => None end
      end
  end.
Lemma user_eq s us t : user_of s = (us, t) -> s = before us (s2b "@") ++ t /\ opt_all (without ":/@") us.
Proof.
  unfold user_of. intro H. pose proof (span_eq (none_of [colon; slash; at_sign]) s) as Q.
  pose proof (span_all (none_of [colon; slash; at_sign]) s) as A.
  destruct (span (none_of [colon; slash; at_sign]) s) as [a b]. cbn [fst snd] in *.
  destruct (after at_sign b) as [t'|] eqn:E; injection H as <- <-; [|split; [reflexivity|exact Logic.I]].
  apply after_some in E. subst b. split.
  - cbn [before]. rewrite <- app_assoc. exact Q.
  - cbn. intros x I J. rewrite Forall_forall in A. specialize (A x J). cbn beta in A. apply none_in in A. apply A.
    exact I.
Qed.
Lemma host_eq s : s = fst (host_of s) ++ snd (host_of s) /\ without ":@/" (fst (host_of s)).
Proof.
  split; [apply span_eq|]. intros x I J. pose proof (span_all (none_of [colon; at_sign; slash]) s) as A.
  rewrite Forall_forall in A. specialize (A x J). cbn beta in A. apply none_in in A. apply A. exact I.
Qed.
Lemma digits_eq s d t : digits_of s = Some (d, t) -> s = behind (s2b ":") d ++ t /\ opt_all digits d.
Proof.
  unfold digits_of. destruct (after colon s) as [u|] eqn:E; intro H.
  - apply after_some in E. pose proof (span_eq is_digit u) as Q. pose proof (span_all is_digit u) as A.
    destruct (span is_digit u) as [[|x a] b]; cbn [fst snd] in *; [discriminate|]. injection H as <- <-.
    split; [subst s; cbn [behind]; rewrite <- app_assoc; cbn; rewrite Q; reflexivity|]. split; [discriminate|exact A].
  - injection H as <- <-. split; [reflexivity|exact Logic.I].
Qed.
Lemma server_eq s us h d t : server_of s = Some (us, h, d, t) -> s = server_text us h d ++ t /\ good_server us h d.
Proof.
  unfold server_of. destruct (user_of s) as [us' s1] eqn:U. apply user_eq in U. destruct U as [U1 U2].
  destruct (host_eq s1) as [H1 H2]. destruct (host_of s1) as [h' s2]. cbn [fst snd] in *.
  destruct (digits_of s2) as [[d' s3]|] eqn:D; [|discriminate]. apply digits_eq in D. destruct D as [D1 D2].
  intro H. injection H as <- <- <- <-. split; [|repeat split; assumption].
  unfold server_text. rewrite <- !app_assoc, <- D1, <- H1. exact U1.
Qed.
Lemma tail_eq s : s = [] \/ (exists t, s = question :: t) ->
  s = behind (s2b "?") (fst (tail_of s)) ++ behind (s2b "#") (snd (tail_of s))
  /\ opt_all (without "#") (fst (tail_of s)) /\ (snd (tail_of s) <> None -> fst (tail_of s) <> None).
Proof.
  intros [->|[t ->]]; [cbn; auto|]. unfold tail_of. cbn [after]. rewrite N.eqb_refl.
  pose proof (span_eq (none_of [hash_sign]) t) as Q. pose proof (span_all (none_of [hash_sign]) t) as A.
  pose proof (span_stops (none_of [hash_sign]) t) as S0. apply stops_one in S0.
  destruct (span (none_of [hash_sign]) t) as [q b]. cbn [fst snd] in *. repeat split.
  - cbn [behind]. rewrite Q. destruct S0 as [->|[f ->]]; cbn; rewrite ?app_nil_r; reflexivity.
  - cbn. intros x I J. rewrite Forall_forall in A. specialize (A x J). cbn beta in A. apply none_in in A. apply A. exact I.
  - discriminate.
Qed.
Lemma rest_eq s p q f : rest_of s = Some (p, q, f) -> s = rest_text p q f /\ good_rest p q /\ (f <> None -> q <> None).
Proof.
  unfold rest_of. destruct (after slash s) as [u|] eqn:E; [|discriminate]. apply after_some in E.
  pose proof (span_eq (none_of [question]) s) as Q. pose proof (span_all (none_of [question]) s) as A.
  pose proof (span_stops (none_of [question]) s) as S0. apply stops_one in S0.
  destruct (span (none_of [question]) s) as [a b]. cbn [fst snd] in *. intro H. injection H as <- <- <-.
  destruct (tail_eq b S0) as (T1 & T2 & T3). split; [|split; [|exact T3]].
  - unfold rest_text. rewrite <- T1. exact Q.
  - split; [|split; [|exact T2]].
    + destruct a as [|x a].
      * cbn in Q. exfalso. destruct S0 as [->|[t ->]]; rewrite E in Q; discriminate.
      * rewrite E in Q. injection Q as <- _. exists a. reflexivity.
    + intros x I J. rewrite Forall_forall in A. specialize (A x J). cbn beta in A. apply none_in in A. apply A. exact I.
Qed.
Lemma strip_eq w s t : strip w s = Some t <-> s = w ++ t.
Proof.
  revert s. induction w as [|x w IH]; intro s; cbn.
  - split; intro H; [injection H; auto|subst; reflexivity].
  - destruct s as [|y s]; [split; discriminate|]. destruct (x =? y) eqn:E.
    + apply N.eqb_eq in E. subst y. rewrite IH. split; intro H; [subst; reflexivity|injection H; auto].
    + apply N.eqb_neq in E. split; intro H; [discriminate|injection H; congruence].
Qed.
Lemma scheme_eq s sc t : scheme_of s = Some (sc, t) -> s = sc ++ s2b "://" ++ t /\ sc <> [] /\ without ":" sc.
Proof.
  unfold scheme_of. pose proof (span_eq (none_of [colon]) s) as Q. pose proof (span_all (none_of [colon]) s) as A.
  destruct (span (none_of [colon]) s) as [[|x a] b]; cbn [fst snd] in *; [discriminate|].
  destruct (strip scheme_end b) as [t'|] eqn:E; [|discriminate]. apply strip_eq in E. intro H. injection H as <- <-.
  split; [rewrite Q, E; reflexivity|]. split; [discriminate|].
  intros y I J. rewrite Forall_forall in A. specialize (A y J). cbn beta in A. apply none_in in A. apply A. exact I.
Qed.
Lemma parsed_eq s a : parsed s = Some a -> s = text a /\ good a /\ (a_fragment a <> None -> a_query a <> None).
Proof.
  unfold parsed. destruct (scheme_of s) as [[sc t]|] eqn:S0; [|discriminate]. apply scheme_eq in S0. destruct S0 as (S1 & S2 & S3).
  destruct (server_of t) as [[[[us h] d] t2]|] eqn:V; [|discriminate]. apply server_eq in V. destruct V as (V1 & V2).
  destruct (rest_of t2) as [[[p q] f]|] eqn:R; [|discriminate]. apply rest_eq in R. destruct R as (R1 & R2 & R3).
  intro H. injection H as <-. split; [|split; [|exact R3]].
  - unfold text. cbn [a_scheme a_user a_host a_port a_path a_query a_fragment]. rewrite <- R1, <- V1. exact S1.
  - unfold good. cbn. auto.
Qed.

(** ** What is written is what is read *)
Lemma without_all l w : without l w -> Forall (fun x => none_of (s2b l) x = true) w.
Proof. intro H. apply Forall_forall. intros x J. apply none_in. intro I. exact (H x I J). Qed.
Lemma user_text us h r : opt_all (without ":/@") us -> without ":@/" h -> (exists x t, r = x :: t /\ (x = colon \/ x = slash)) \/ r = [] ->
  user_of (before us (s2b "@") ++ h ++ r) = (us, h ++ r).
Proof.
  intros U H R. unfold user_of. destruct us as [u|]; cbn [before].
  - rewrite <- app_assoc. rewrite (span_app (none_of [colon; slash; at_sign]) u (s2b "@" ++ h ++ r)); [reflexivity| |reflexivity].
    exact (without_all ":/@" u U).
  - cbn [app]. rewrite (span_app (none_of [colon; slash; at_sign]) h r).
    + destruct R as [(x & t & -> & [-> | ->])| ->]; reflexivity.
    + apply Forall_forall. intros x J. apply none_in. intro I. apply (H x); [|exact J]. cbn in *. tauto.
    + destruct R as [(x & t & -> & [-> | ->])| ->]; reflexivity || exact Logic.I.
Qed.
Lemma server_back us h d r : good_server us h d -> (exists t, r = slash :: t) \/ r = [] ->
  server_of (server_text us h d ++ r) = Some (us, h, d, r).
Proof.
  intros (U & H & D) R. unfold server_of, server_text. rewrite <- !app_assoc.
  assert (Y : (exists x t, behind (s2b ":") d ++ r = x :: t /\ (x = colon \/ x = slash)) \/ behind (s2b ":") d ++ r = []).
  { destruct d as [d|]; cbn [behind].
    - left. exists colon, (d ++ r). split; [reflexivity|auto].
    - destruct R as [[t ->]| ->]; [left; exists slash, t; auto|right; reflexivity]. }
  rewrite (user_text us h _ U H Y). unfold host_of. rewrite (span_app (none_of [colon; at_sign; slash]) h).
  - unfold digits_of. destruct d as [d|]; cbn [behind].
    + change ((s2b ":" ++ d) ++ r) with (colon :: d ++ r). cbn [after]. rewrite N.eqb_refl.
      destruct D as [D0 D1]. rewrite (span_app is_digit d r D1); [|destruct R as [[t ->]| ->]; [reflexivity|exact Logic.I]].
      cbn [fst snd]. destruct d; [congruence|reflexivity].
    + cbn [app]. destruct R as [[t ->]| ->]; reflexivity.
  - exact (without_all ":@/" h H).
  - destruct Y as [(x & t & -> & [-> | ->])| ->]; reflexivity || exact Logic.I.
Qed.
Lemma rest_back p q f : good_rest p q -> (f <> None -> q <> None) -> rest_of (rest_text p q f) = Some (p, q, f).
Proof.
  intros ((t & ->) & W & Q) F. unfold rest_of, rest_text.
  change (after slash ((s2b "/" ++ t) ++ behind (s2b "?") q ++ behind (s2b "#") f)) with (Some (t ++ behind (s2b "?") q ++ behind (s2b "#") f)).
  cbv iota beta. rewrite (span_app (none_of [question]) (s2b "/" ++ t)).
  - destruct q as [q|]; cbn [behind].
    + unfold tail_of. change (after question ((s2b "?" ++ q) ++ behind (s2b "#") f)) with (Some (q ++ behind (s2b "#") f)).
      cbv iota beta. rewrite (span_app (none_of [hash_sign]) q).
      * destruct f as [f|]; reflexivity.
      * exact (without_all "#" q Q).
      * destruct f as [f|]; [reflexivity|exact Logic.I].
    + destruct f as [f|]; [exfalso; apply F; [discriminate|reflexivity]|reflexivity].
  - exact (without_all "?" _ W).
  - destruct q as [q|]; [reflexivity|]. destruct f as [f|]; [exfalso; apply F; [discriminate|reflexivity]|exact Logic.I].
Qed.
Lemma scheme_back sc t : sc <> [] -> without ":" sc -> scheme_of (sc ++ s2b "://" ++ t) = Some (sc, t).
Proof.
  intros N0 W. unfold scheme_of. rewrite (span_app (none_of [colon]) sc (s2b "://" ++ t)); [|exact (without_all ":" sc W)|reflexivity].
  destruct sc; [congruence|]. reflexivity.
Qed.
Lemma parsed_back a : good a -> (a_fragment a <> None -> a_query a <> None) -> parsed (text a) = Some a.
Proof.
  destruct a as [sc us h d p q f]. intros (S1 & S2 & V & R) F. cbn [a_scheme a_user a_host a_port a_path a_query a_fragment] in *. unfold parsed, text. cbn [a_scheme a_user a_host a_port a_path a_query a_fragment].
  rewrite (scheme_back sc _ S1 S2), (server_back us h d _ V), (rest_back p q f R F); [reflexivity|].
  left. destruct R as ((t & ->) & _). unfold rest_text. eexists. reflexivity.
Qed.

(** ** coordinator::uri *)
Definition read_as (a : address) : uri :=
  mkUri (a_scheme a) (server_text (a_user a) (a_host a) (a_port a)) (opt (a_user a)) (a_host a) (port_of (opt (a_port a)))
        (a_path a) (opt (a_query a)) (opt (a_fragment a)).
Definition nothing : uri := mkUri [] [] [] [] 0%Z [] [] [].
Lemma body_fails i j k x t c : x <> slash -> go (body_re i j k) (x :: t) c fin = None.
Proof.
  intro H. rewrite body_go. destruct (rest_of (x :: t)) as [r|] eqn:E; [|reflexivity].
  exfalso. assert (N0 : rest_of (x :: t) <> None) by congruence. apply rest_starts in N0. destruct N0 as [u Q].
  injection Q as Q _. auto.
Qed.
Lemma uri_parsed s : uri_of s = match parsed s with Some a => read_as a | None => nothing end.
Proof.
  unfold uri_of. rewrite regex_go. unfold uri_re, parsed. rewrite go_seq, scheme_go.
  destruct (scheme_of s) as [[sc t]|]; [|reflexivity]. rewrite go_seq, go_grp, server_go; [|intros; apply body_fails; assumption].
  destruct (server_of t) as [[[[us h] d] t2]|] eqn:V; [|reflexivity]. apply server_eq in V. destruct V as (V1 & _).
  rewrite body_go. replace (firstn (List.length t - List.length t2) t) with (server_text us h d) by (rewrite V1, taken; reflexivity).
  destruct (rest_of t2) as [[[p q] f]|]; [|reflexivity].
  destruct us, d, q, f; reflexivity.
Qed.
