From Coq Require Import List Bool Arith NArith Lia Permutation.
From Verif Require Import Base BaseLemmas StorageModel TextModel AcceptModel AcceptSpec.
Import ListNotations.

Lemma pop_split l p c q : pop l p = Some (c, q) -> exists a b, p = a ++ (l, c) :: b /\ q = a ++ b /\ Forall (fun x => fst x <> l) a.
Proof.
  revert c q. induction p as [|[l' c'] p IH]; intros c q E; [discriminate E|]. cbn [pop] in E. destruct (Nat.eqb_spec l' l) as [->|N].
  - injection E as <- <-. exists [], p. repeat split; auto.
  - destruct (pop l p) as [[x r]|]; [|discriminate E]. injection E as <- <-. destruct (IH x r eq_refl) as (a & b & -> & -> & F).
    exists ((l', c') :: a), b. repeat split; auto.
Qed.
Lemma pop_perm l p c q : pop l p = Some (c, q) -> Permutation (map snd p) (c :: map snd q).
Proof. intros E. apply pop_split in E as (a & b & -> & -> & _). rewrite !map_app. cbn. symmetry. apply Permutation_middle. Qed.
Lemma of_other l a : Forall (fun x : nat * nat => fst x <> l) a -> of_socket l a = [].
Proof. unfold of_socket. induction 1 as [|x a H _ IH]; [reflexivity|]. cbn [filter]. destruct (Nat.eqb_spec (fst x) l); [contradiction|exact IH]. Qed.
Lemma of_app l a b : of_socket l (a ++ b) = of_socket l a ++ of_socket l b.
Proof. unfold of_socket. now rewrite filter_app, map_app. Qed.
Lemma of_cons l l' c a : of_socket l ((l', c) :: a) = if Nat.eqb l' l then c :: of_socket l a else of_socket l a.
Proof. unfold of_socket. cbn [filter fst]. destruct (Nat.eqb l' l); reflexivity. Qed.
Lemma drop_perm c l : In c l -> Permutation l (c :: drop c l).
Proof.
  induction l as [|x l IH]; [intros []|]. cbn [drop]. destruct (Nat.eqb_spec x c) as [->|N]; [reflexivity|]. intros [->|I]; [contradiction|].
  rewrite (IH I) at 1. apply perm_swap.
Qed.
Lemma drop_length c l : length (drop c l) <= length l.
Proof. induction l as [|x l IH]; cbn; [lia|]. destruct (Nat.eqb x c); cbn; lia. Qed.

(** ** Every connection is in one place. *)
Definition inv (s : srv) : Prop :=
  NoDup (map snd (arrived s)) /\ Permutation (map snd (arrived s)) (everywhere s) /\
  forall l, of_socket l (arrived s) = of_socket l (taken s) ++ of_socket l (pending s).
Lemma inv_wait ready : forall s, inv s -> inv (wait ready s).
Proof.
  induction ready as [|[[l ts] opts] ready IH]; intros s V; [exact V|]. cbn [wait].
  destruct (pop l (pending s)) as [[c p]|] eqn:P; [|exact V]. destruct (accept_loop _ _); [|exact V].
  assert (O : forall l', of_socket l' (taken s) ++ of_socket l' (pending s) = of_socket l' (taken s ++ [(l, c)]) ++ of_socket l' p).
  { intros l'. apply pop_split in P as (a & b & -> & -> & F). rewrite !of_app, !of_cons. change (of_socket l' []) with (@nil nat).
    destruct (Nat.eqb_spec l l') as [<-|N]; [|now rewrite app_nil_r]. rewrite (of_other l a F). cbn. now rewrite <- app_assoc. }
  destruct V as (V1 & V2 & V3). unfold everywhere in V2. rewrite (pop_perm _ _ _ _ P) in V2. destruct opts.
  - apply IH. split; [exact V1|]. split; [|intros l'; cbn [arrived taken pending]; now rewrite <- O]. cbn [arrived]. rewrite V2. unfold everywhere.
    cbn [pending hand sessions over turned stuck]. rewrite <- (app_assoc (hand s)). cbn [app]. rewrite app_assoc. rewrite app_comm_cons.
    rewrite (app_assoc (map snd p)). apply Permutation_middle.
  - split; [exact V1|]. split; [|intros l'; cbn [arrived taken pending]; now rewrite <- O]. cbn [arrived]. rewrite V2. unfold everywhere.
    cbn [pending hand sessions over turned stuck].
    transitivity (c :: (map snd p ++ hand s ++ sessions s ++ over s ++ turned s) ++ stuck s); [rewrite <- !app_assoc; reflexivity|].
    rewrite Permutation_middle. rewrite <- !app_assoc. reflexivity.
Qed.
Lemma inv_step k s e s' : inv s -> step k s e = Some s' -> inv s'.
Proof.
  intros V E. pose proof V as (V1 & V2 & V3). destruct e as [l c|ready|made|c|n]; cbn [step] in E.
  - destruct (existsb _ _) eqn:X; [discriminate E|]. injection E as <-. split; [|split].
    + cbn [arrived]. rewrite map_app. cbn [map snd]. apply (Permutation_NoDup (Permutation_cons_append _ _)). constructor; [|exact V1].
      intros I. apply in_map_iff in I as (x & Ex & I). assert (existsb (fun x => snd x =? c) (arrived s) = true) by (apply existsb_exists; exists x; split; [exact I|now apply Nat.eqb_eq]). congruence.
    + unfold everywhere. cbn [arrived pending hand sessions over turned stuck]. rewrite !map_app. cbn [map snd].
      rewrite V2. unfold everywhere. rewrite <- (Permutation_cons_append _ c). rewrite <- app_assoc. cbn [app]. apply Permutation_middle.
    + intros l'. cbn [arrived taken pending]. rewrite !of_app, V3. now rewrite <- app_assoc.
  - destruct (hand s); [|discriminate E]. injection E as <-. now apply inv_wait.
  - unfold handle in E. destruct (hand s) as [|c h] eqn:H; [discriminate E|]. unfold everywhere in V2. rewrite H in V2.
    assert (M : forall a b : list nat, Permutation (map snd (pending s) ++ (c :: h) ++ a ++ b) (map snd (pending s) ++ h ++ a ++ c :: b)).
    { intros a b. apply Permutation_app_head. cbn [app]. rewrite !(app_assoc h). apply Permutation_middle. }
    destruct (Nat.leb _ _); [|destruct made; [|destruct k]]; injection E as <-; (split; [exact V1|split; [|exact V3]]); cbn [arrived]; rewrite V2; unfold everywhere;
      cbn [pending hand sessions over turned stuck]; rewrite <- ?app_assoc; cbn [app].
    + rewrite (app_assoc (sessions s)), (app_assoc (sessions s ++ over s)). rewrite (M ((sessions s ++ over s) ++ turned s) (stuck s)). now rewrite <- !app_assoc.
    + apply M.
    + rewrite (app_assoc (sessions s)), (app_assoc (sessions s ++ over s)). rewrite (M ((sessions s ++ over s) ++ turned s) (stuck s)). now rewrite <- !app_assoc.
    + rewrite <- (app_nil_r (stuck s)) at 1. rewrite (app_assoc (sessions s)), (app_assoc (sessions s ++ over s)), (app_assoc ((sessions s ++ over s) ++ turned s)).
      rewrite (M (((sessions s ++ over s) ++ turned s) ++ stuck s) []). now rewrite <- !app_assoc.
  - destruct (existsb _ _) eqn:X; [|discriminate E]. injection E as <-. apply existsb_exists in X as (c' & I & X). apply Nat.eqb_eq in X as <-.
    split; [exact V1|]. split; [|exact V3]. cbn [arrived]. rewrite V2. unfold everywhere. cbn [pending hand sessions over turned stuck].
    apply Permutation_app_head, Permutation_app_head. rewrite (drop_perm c _ I) at 1. cbn [app]. rewrite <- (app_assoc (over s)). cbn [app].
    rewrite (app_assoc (drop c (sessions s))), (app_assoc _ (over s) (c :: _)). apply Permutation_middle.
  - injection E as <-. exact V.
Qed.
Lemma inv_steps k es : forall s s', inv s -> steps k s es = Some s' -> inv s'.
Proof.
  induction es as [|e es IH]; intros s s' V E; cbn [steps] in E; [congruence|]. destruct (step k s e) as [s1|] eqn:S1; [|discriminate E].
  eapply IH; [eapply inv_step; eauto|exact E].
Qed.
Lemma inv_reachable k max s : reachable k max s -> inv s.
Proof. intros (es & E). eapply inv_steps; [|exact E]. split; [constructor|]. split; [constructor|reflexivity]. Qed.

(** ** The limit. *)
Lemma wait_sessions ready : forall s, sessions (wait ready s) = sessions s /\ limit (wait ready s) = limit s /\ total (wait ready s) = total s /\ over (wait ready s) = over s /\ stuck (wait ready s) = stuck s.
Proof.
  induction ready as [|[[l ts] opts] ready IH]; intros s; [auto|]. cbn [wait].
  destruct (pop l (pending s)) as [[c p]|]; [|auto]. destruct (accept_loop _ _); [|auto]. destruct opts; [|auto].
  match goal with |- sessions (wait _ ?x) = _ /\ _ => exact (IH x) end.
Qed.
Lemma limit_steps k es : forall s s' m, length (sessions s) <= m -> limit s <= m -> steps k s es = Some s' -> length (sessions s') <= Nat.max m (highest (limit s) es).
Proof.
  induction es as [|e es IH]; intros s s' m L M E; cbn [steps] in E; [injection E as <-; cbn; lia|].
  destruct (step k s e) as [s1|] eqn:S1; [|discriminate E].
  assert (G : limit s1 = (match e with Reload n => n | _ => limit s end) /\ (length (sessions s1) <= length (sessions s) \/ length (sessions s1) <= limit s)).
  { destruct e as [l c|ready|made|c|n]; cbn [step] in S1.
    - destruct (existsb _ _); [discriminate S1|]. injection S1 as <-. auto.
    - destruct (hand s); [|discriminate S1]. injection S1 as <-. destruct (wait_sessions ready s) as (-> & -> & _). auto.
    - unfold handle in S1. destruct (hand s) as [|c h]; [discriminate S1|]. destruct (Nat.leb_spec (limit s) (length (sessions s))); [injection S1 as <-; auto|].
      destruct made; [injection S1 as <-; split; [reflexivity|]; right; cbn [sessions]; rewrite app_length; cbn; lia|]. destruct k; injection S1 as <-; auto.
    - destruct (existsb _ _); [|discriminate S1]. injection S1 as <-. split; [reflexivity|]. left. cbn [sessions]. apply drop_length.
    - injection S1 as <-. auto. }
  destruct G as (G1 & G2). destruct e as [l c|ready|made|c|n]; cbn [highest].
  1,2,3,4: rewrite <- G1; apply (IH s1 s' m); [lia|lia|exact E].
  pose proof (IH s1 s' (Nat.max m n) ltac:(lia) ltac:(lia) E) as H. rewrite G1 in H.
  assert (n <= highest n es) by (clear; induction es as [|e es IH]; [cbn; lia|destruct e; cbn [highest]; lia]). lia.
Qed.

(** ** The statistics. *)
Lemma total_steps k es : forall s s', steps k s es = Some s' ->
  length (sessions s) + length (over s) + total s' <= length (sessions s') + length (over s') + total s + failures es /\
  length (sessions s') + length (over s') + total s <= length (sessions s) + length (over s) + total s'.
Proof.
  induction es as [|e es IH]; intros s s' E; cbn [steps] in E; [injection E as <-; cbn; lia|].
  destruct (step k s e) as [s1|] eqn:S1; [|discriminate E]. specialize (IH s1 s' E).
  assert (G : length (sessions s) + length (over s) + total s1 <= length (sessions s1) + length (over s1) + total s + failures [e] /\
    length (sessions s1) + length (over s1) + total s <= length (sessions s) + length (over s) + total s1).
  { destruct e as [l c|ready|made|c|n]; cbn [step] in S1.
    - destruct (existsb _ _); [discriminate S1|]. injection S1 as <-. cbn. lia.
    - destruct (hand s); [|discriminate S1]. injection S1 as <-. destruct (wait_sessions ready s) as (-> & _ & -> & -> & _). lia.
    - unfold handle in S1. destruct (hand s) as [|c h]; [discriminate S1|]. destruct (Nat.leb _ _); [injection S1 as <-; cbn; lia|].
      destruct made; [injection S1 as <-; cbn [sessions over total]; rewrite app_length; cbn; lia|]. destruct k; injection S1 as <-; cbn; lia.
    - destruct (existsb _ _) eqn:X; [|discriminate S1]. injection S1 as <-. apply existsb_exists in X as (c' & I & X). apply Nat.eqb_eq in X as <-.
      pose proof (Permutation_length (drop_perm c _ I)) as L. cbn [length] in L. cbn [sessions over total]. rewrite app_length. cbn [length]. lia.
    - injection S1 as <-. cbn. lia. }
  assert (F : failures (e :: es) = failures [e] + failures es) by (unfold failures; change (e :: es) with ([e] ++ es); now rewrite filter_app, app_length). lia.
Qed.

(** ** What works is served. *)
Lemma accept_works n ts m : n < m -> accept_loop m (repeat TAgain n ++ TOk :: ts) = true.
Proof. revert n. induction m as [|m IH]; intros n H; [lia|]. destruct n as [|n]; [reflexivity|]. cbn. apply IH. lia. Qed.
(** Sockets that are ready have connections. *)
Lemma pop_some l p : of_socket l p <> [] -> exists c q, pop l p = Some (c, q) /\ of_socket l p = c :: of_socket l q /\ forall l', l' <> l -> of_socket l' q = of_socket l' p.
Proof.
  induction p as [|[l' c] p IH]; intros N; [now elim N|]. rewrite of_cons in N. cbn [pop]. destruct (Nat.eqb_spec l' l) as [->|D].
  - exists c, p. split; [reflexivity|]. rewrite of_cons, Nat.eqb_refl. split; [reflexivity|]. intros l' D. rewrite of_cons. destruct (Nat.eqb_spec l l'); [congruence|reflexivity].
  - destruct (IH N) as (x & q & -> & E & O). exists x, ((l', c) :: q). split; [reflexivity|]. rewrite !of_cons. destruct (Nat.eqb_spec l' l); [contradiction|].
    split; [exact E|]. intros l2 D2. rewrite !of_cons. destruct (Nat.eqb l' l2); [f_equal|]; now apply O.
Qed.
Definition first_of (p : list (nat * nat)) (l : nat) : list nat := firstn 1 (of_socket l p).
Lemma wait_all ready : forall s, Forall works ready -> NoDup (map (fun r => fst (fst r)) ready) -> (forall r, In r ready -> of_socket (fst (fst r)) (pending s) <> []) ->
  hand (wait ready s) = hand s ++ flat_map (fun r => first_of (pending s) (fst (fst r))) ready.
Proof.
  induction ready as [|[[l ts] opts] ready IH]; intros s W ND P; [now rewrite app_nil_r|]. apply List.Forall_cons_iff in W as (W1 & W). cbn [map fst] in ND. apply NoDup_cons_iff in ND as (N & ND).
  destruct (pop_some l (pending s) (P _ (or_introl eq_refl))) as (c & q & E & O & Other). destruct W1 as (n & t & E1 & Hn & E2). cbn [fst snd] in E1, E2. subst ts opts.
  cbn [wait]. rewrite E. unfold accept_retry_limit. rewrite (accept_works n t 16 Hn). rewrite IH; [|exact W|exact ND|].
  - cbn [hand pending flat_map fst]. unfold first_of at 2. rewrite O. cbn [firstn app]. rewrite <- app_assoc. cbn [app]. do 2 f_equal.
    change (firstn 0 (of_socket l q)) with (@nil nat). cbn [app]. rewrite !flat_map_concat_map. f_equal. apply map_ext_in. intros [[l' ts'] opts'] I. cbn [fst]. unfold first_of. rewrite Other; [reflexivity|].
    intros ->. apply N. apply (in_map (fun r => fst (fst r)) _ _ I).
  - intros r I. cbn [pending]. rewrite Other; [apply P; now right|]. intros Eq. apply N. rewrite <- Eq. apply (in_map (fun r => fst (fst r)) _ _ I).
Qed.
Lemma handle_all k : forall n s, length (hand s) = n -> length (sessions s) + n <= limit s ->
  exists s', steps k s (repeat (Handle true) n) = Some s' /\ hand s' = [] /\ sessions s' = sessions s ++ hand s /\ turned s' = turned s /\ stuck s' = stuck s /\ pending s' = pending s.
Proof.
  induction n as [|n IH]; intros s L M.
  - exists s. destruct (hand s); [|discriminate L]. rewrite app_nil_r. auto 6.
  - destruct (hand s) as [|c h] eqn:H; [discriminate L|]. cbn [repeat steps step]. unfold handle. rewrite H. destruct (Nat.leb_spec (limit s) (length (sessions s))); [lia|].
    match goal with |- exists _, steps _ ?x _ = _ /\ _ => destruct (IH x) as (s' & E & A & B & C & D & F) end.
    + cbn [hand]. cbn in L. lia.
    + cbn [sessions limit]. rewrite app_length. cbn. lia.
    + exists s'. split; [exact E|]. split; [exact A|]. split; [rewrite B; cbn [sessions hand]; now rewrite <- app_assoc|]. auto.
Qed.

(** ** Failures. *)
Lemma wait_fails l ts opts ready s : accept_loop accept_retry_limit ts = false -> wait ((l, ts, opts) :: ready) s = s.
Proof. intros E. cbn [wait]. rewrite E. destruct (pop l (pending s)) as [[c p]|]; reflexivity. Qed.
Lemma wait_keeps ready : forall s l c, In (l, c) (pending s) -> In (l, c) (pending (wait ready s)) \/ In c (hand (wait ready s)) \/ (In c (turned (wait ready s)) /\ Exists (fun r => snd r = false) ready).
Proof.
  assert (Keep : forall ready s c, In c (hand s) -> In c (hand (wait ready s))).
  { clear. induction ready as [|[[l ts] opts] ready IH]; intros s c I; [exact I|]. cbn [wait]. destruct (pop l (pending s)) as [[x p]|]; [|exact I].
    destruct (accept_loop _ _); [|exact I]. destruct opts; [|exact I]. apply IH. cbn [hand]. apply in_or_app. now left. }
  induction ready as [|[[l ts] opts] ready IH]; intros s l0 c I; [now left|]. cbn [wait].
  destruct (pop l (pending s)) as [[x p]|] eqn:P; [|now left]. destruct (accept_loop _ _); [|now left].
  apply pop_split in P as (a & b & E & -> & _).
  assert (In (l0, c) (a ++ b) \/ c = x) as [J| ->].
  { rewrite E in I. apply in_app_or in I as [I|[I|I]]; [left; apply in_or_app; now left|right; congruence|left; apply in_or_app; now right]. }
  - destruct opts; [|left; exact J]. destruct (IH (mkSrv (a ++ b) (hand s ++ [x]) (sessions s) (over s) (turned s) (stuck s) (limit s) (total s) (arrived s) (taken s ++ [(l, x)])) l0 c J) as [H|[H|(H & X)]]; auto 6.
  - destruct opts.
    + right. left. apply Keep. cbn [hand]. apply in_or_app. right. now left.
    + right. right. split; [cbn; apply in_or_app; right; now left|]. now left.
Qed.
Lemma stuck_steps k es : forall s s' c, In c (stuck s) -> steps k s es = Some s' -> In c (stuck s').
Proof.
  induction es as [|e es IH]; intros s s' c I E; cbn [steps] in E; [congruence|]. destruct (step k s e) as [s1|] eqn:S1; [|discriminate E].
  apply (IH s1); [|exact E]. destruct e as [l x|ready|made|x|n]; cbn [step] in S1.
  - destruct (existsb _ _); [discriminate S1|]. injection S1 as <-. exact I.
  - destruct (hand s); [|discriminate S1]. injection S1 as <-. now destruct (wait_sessions ready s) as (_ & _ & _ & _ & ->).
  - unfold handle in S1. destruct (hand s) as [|y h]; [discriminate S1|]. destruct (Nat.leb _ _); [injection S1 as <-; exact I|].
    destruct made; [injection S1 as <-; exact I|]. destruct k; injection S1 as <-; [exact I|]. cbn. apply in_or_app. now left.
  - destruct (existsb _ _); [|discriminate S1]. injection S1 as <-. exact I.
  - injection S1 as <-. exact I.
Qed.

(** ** Paths. *)
Lemma c_string_ok b r : ~ In 0%N b -> c_string (b ++ 0%N :: r) = Ok b.
Proof.
  induction b as [|c b IH]; intros N; [reflexivity|]. cbn [app c_string]. destruct c as [|c]; [elim N; now left|]. rewrite IH; [reflexivity|]. intros I. apply N. now right.
Qed.
Lemma c_string_none b : ~ In 0%N b -> c_string b = Undef.
Proof. induction b as [|c b IH]; intros N; [reflexivity|]. cbn [c_string]. destruct c as [|c]; [elim N; now left|]. rewrite IH; [reflexivity|]. intros I. apply N. now right. Qed.
Lemma unlinked_short uds : ~ In 0%N uds -> length uds <= 13 -> unlinked_path uds = Ok uds.
Proof.
  intros N L. unfold unlinked_path, stored_address, bound_path. change (N.to_nat (path_size - 1)) with 107. change (N.to_nat sockaddr_size) with 16. change (N.to_nat path_offset) with 2.
  rewrite (firstn_all2 uds) by lia. rewrite firstn_all2 by (rewrite !app_length; cbn; lia). cbn [app skipn]. now apply c_string_ok.
Qed.
Lemma unlinked_long uds : ~ In 0%N uds -> 14 <= length uds -> unlinked_path uds = Undef.
Proof.
  intros N L. unfold unlinked_path, stored_address, bound_path. change (N.to_nat (path_size - 1)) with 107. change (N.to_nat sockaddr_size) with 16. change (N.to_nat path_offset) with 2.
  cbn [app firstn skipn]. apply c_string_none. intros I.
  assert (E : firstn 14 (firstn 107 uds ++ [0%N]) = firstn 14 uds).
  { rewrite firstn_app. assert (14 <= length (firstn 107 uds)) by (rewrite firstn_length; lia). replace (14 - length (firstn 107 uds)) with 0 by lia. rewrite app_nil_r, firstn_firstn. reflexivity. }
  rewrite E in I. apply N. revert I. clear. generalize 14. intros n. revert n. induction uds as [|c uds IH]; intros [|n] I; cbn in *; try tauto. destruct I as [I|I]; eauto.
Qed.
