From stdpp Require Import gmap.
From Coq Require Import Lia ZifyBool ZifyNat ZifyN.
From Verif Require Import Base BaseLemmas StorageModel StorageSpec StorageProofs ConcModel ConcSpec.
Local Open Scope N_scope.

(** * Programs on one key *)
Notation kview := (option bytes * option (Z * N))%type.
Fixpoint exec (p : prog) (v : kview) : option (reply * kview) :=
  match p with
  | Done r => Some (r, v)
  | Bad => None
  | DbGet c => exec (c (fst v)) v
  | DbPut raw p => exec p (Some raw, snd v)
  | DbOut p => exec p (None, snd v)
  | CGet c => exec (c (snd v)) v
  | CPut h p => exec p (fst v, Some h)
  end.
Fixpoint sexec (s : store) (k : key) (p : prog) : option (reply * store) :=
  match p with
  | Done r => Some (r, s)
  | Bad => None
  | DbGet c => sexec s k (c (db s !! k))
  | DbPut raw p => sexec (set_db s (<[k := raw]> (db s))) k p
  | DbOut p => sexec (set_db s (delete k (db s))) k p
  | CGet c => sexec s k (c (hc_get (hcache s) k))
  | CPut v p => sexec (cache_put s k v) k p
  end.

Record cinv (keys : list key) (n : N) (s : store) : Prop := {
  ci_size : hcache_size s = n;
  ci_room : (length keys <= N.to_nat n)%nat;
  ci_nodup : List.NoDup (map fst (hcache s));
  ci_keys : forall k, In k (map fst (hcache s)) -> In k keys;
}.
Lemma cache_put_ok keys n s k v : cinv keys n s -> In k keys ->
  cinv keys n (cache_put s k v) /\ db (cache_put s k v) = db s /\
  forall k', hc_get (hcache (cache_put s k v)) k' = if beq k k' then Some v else hc_get (hcache s) k'.
Proof.
  intros [E1 E2 E3 E4] I. unfold cache_put. pose proof (hc_put_nodup (hcache s) k v E3) as ND.
  assert (SUB : forall x, In x (map fst (hc_put (hcache s) k v)) -> In x keys).
  { intros x X. destruct (hc_put_keys (hcache s) k v) as [E|[_ E]]; rewrite E in X; auto. apply in_app_or in X as [X|[<-|[]]]; auto. }
  assert (L : (length (hc_put (hcache s) k v) <= N.to_nat n)%nat).
  { rewrite <- (map_length fst). etransitivity; [|exact E2]. apply List.NoDup_incl_length; [exact ND|exact SUB]. }
  replace (length (hc_put (hcache s) k v) - N.to_nat (hcache_size s))%nat with 0%nat by (rewrite E1; lia).
  cbn [skipn set_hcache hcache hcache_size db]. split; [|split; [reflexivity|]].
  - split; auto.
  - intros k'. apply hc_put_get.
Qed.
Lemma beq_view k k' : beq k k' = true <-> k = k'. Proof. apply beq_eq. Qed.

(** An access changes the view of its key as [exec] says, and no other key. *)
Definition step_view (p : prog) (v : kview) : kview :=
  match p with
  | DbPut raw _ => (Some raw, snd v)
  | DbOut _ => (None, snd v)
  | CPut h _ => (fst v, Some h)
  | _ => v
  end.
Lemma access_ok keys n s k p s' p' : cinv keys n s -> In k keys -> access s k p = Some (s', p') ->
  cinv keys n s' /\ exec p (view s k) = exec p' (view s' k) /\ view s' k = step_view p (view s k) /\ forall k', k' <> k -> view s' k' = view s k'.
Proof.
  intros C I. destruct p as [r| |c|raw q|q|c|v q]; cbn [access]; intros [= <- <-]; try (split; [assumption|split; [reflexivity|split; [reflexivity|reflexivity]]]).
  - split; [destruct C; split; auto|]. assert (V : view (set_db s (<[k:=raw]> (db s))) k = (Some raw, snd (view s k))) by (unfold view; cbn; now rewrite lookup_insert).
    split; [cbn [exec]; now rewrite V|]. split; [exact V|]. intros k' H. unfold view. cbn. now rewrite lookup_insert_ne by congruence.
  - split; [destruct C; split; auto|]. assert (V : view (set_db s (delete k (db s))) k = (None, snd (view s k))) by (unfold view; cbn; now rewrite lookup_delete).
    split; [cbn [exec]; now rewrite V|]. split; [exact V|]. intros k' H. unfold view. cbn. now rewrite lookup_delete_ne by congruence.
  - destruct (cache_put_ok keys n s k v C I) as (C' & D & G). split; [exact C'|].
    assert (V : view (cache_put s k v) k = (fst (view s k), Some v)) by (unfold view; now rewrite D, G, beq_refl).
    split; [cbn [exec]; now rewrite V|]. split; [exact V|]. intros k' H. unfold view. rewrite D, G. now rewrite (proj2 (beq_neq _ _)) by congruence.
Qed.
Lemma sexec_ok keys n k p : In k keys -> forall s, cinv keys n s ->
  match exec p (view s k) with
  | None => sexec s k p = None
  | Some (r, v) => exists s', sexec s k p = Some (r, s') /\ view s' k = v /\ cinv keys n s' /\ forall k', k' <> k -> view s' k' = view s k'
  end.
Proof.
  intros I. induction p as [r| |c IH|raw q IH|q IH|c IH|v q IH]; intros s C.
  - cbn. exists s. auto.
  - reflexivity.
  - cbn [exec sexec]. apply (IH (db s !! k)). exact C.
  - destruct (access_ok keys n s k (DbPut raw q) _ _ C I eq_refl) as (C' & E & V & O). rewrite E. specialize (IH _ C'). cbn [sexec].
    destruct (exec q _) as [[r v]|]; [|exact IH]. destruct IH as (s' & A & B & D & F). exists s'. split; [exact A|split; [exact B|split; [exact D|]]]. intros k' H. rewrite F, O; auto.
  - destruct (access_ok keys n s k (DbOut q) _ _ C I eq_refl) as (C' & E & V & O). rewrite E. specialize (IH _ C'). cbn [sexec].
    destruct (exec q _) as [[r v]|]; [|exact IH]. destruct IH as (s' & A & B & D & F). exists s'. split; [exact A|split; [exact B|split; [exact D|]]]. intros k' H. rewrite F, O; auto.
  - cbn [exec sexec]. apply (IH (hc_get (hcache s) k)). exact C.
  - destruct (access_ok keys n s k (CPut v q) _ _ C I eq_refl) as (C' & E & V & O). rewrite E. specialize (IH _ C'). cbn [sexec].
    destruct (exec q _) as [[r w]|]; [|exact IH]. destruct IH as (s' & A & B & D & F). exists s'. split; [exact A|split; [exact B|split; [exact D|]]]. intros k' H. rewrite F, O; auto.
Qed.

(** * The programs are the commands of StorageModel *)
Lemma set_header_cache_put s now k e : set_header_cache s now k e = cache_put s k (tomb_of now e).
Proof. reflexivity. Qed.
Lemma from_cache_ok s k e : get_header_cache s k e = from_cache (hc_get (hcache s) k) e.
Proof. reflexivity. Qed.
Lemma header_sexec s k c : sexec s k (header_prog c) = let '(e, ok) := get_header s k (empty_entry []) in sexec s k (c e ok).
Proof.
  unfold header_prog, get_header. cbn [sexec]. destruct (db s !! k) as [raw|]; [|reflexivity].
  destruct (unser_header _ _) as [e ok]. reflexivity.
Qed.
Lemma remove_sexec s now e b c : sexec s (e_key e) (remove_prog now e b c) =
  let o := remove s now e b in
  match o_res o with Some r => sexec (o_store o) (e_key e) (c r (o_entry o)) | None => None end.
Proof.
  unfold remove_prog. rewrite header_sexec. unfold remove. destruct (get_header _ _ _) as [cur ex].
  destruct (_ && _ && _); [reflexivity|]. destruct ex; cbn [negb].
  - cbv zeta. cbn [o_res o_store o_entry]. reflexivity.
  - destruct (negb (e_version e =? 0)); reflexivity.
Qed.
Lemma remove_res s now e b : exists r, o_res (remove s now e b) = Some r.
Proof. unfold remove. destruct (get_header _ _ _) as [cur ex]. destruct (_ && _ && _); [eexists; reflexivity|]. destruct ex; eexists; reflexivity. Qed.
Lemma remove_key s now e b : e_key (o_entry (remove s now e b)) = e_key e.
Proof. unfold remove. destruct (get_header _ _ _) as [cur ex]. destruct (_ && _ && _); [reflexivity|]. destruct ex; [|reflexivity]. cbn. destruct (e_version e =? 0); reflexivity. Qed.
Lemma unser_key raw e : e_key (fst (unser_header raw e)) = e_key e.
Proof. unfold unser_header. repeat (destruct (_ <? _); [reflexivity|]). reflexivity. Qed.
Lemma get_sexec s now e b c x : sexec s (e_key e) (get_prog now e b c x) =
  match stale s now e b with
  | Some e1 => sexec s (e_key e) (x e1)
  | None => let o := get s now e b in sexec s (e_key e) (c (o_ret o) (o_res o) (o_entry o))
  end.
Proof.
  unfold get_prog, stale, get. cbn [sexec]. destruct (db s !! e_key e) as [raw|]; [|reflexivity].
  destruct (unser_header raw e) as [e1 ok]. destruct ok; cbn [negb andb]; [|reflexivity].
  destruct (_ =? _); cbn [negb andb]; [|reflexivity]. destruct (_ && _); reflexivity.
Qed.
Lemma stale_get s now e b e1 : stale s now e b = Some e1 ->
  get s now e b = let o := remove s now e1 (N.lor (N.land b behavior_skip_lock) behavior_version_equal) in mkOut (o_store o) 0 (Some result_not_found) (o_entry o).
Proof.
  unfold stale, get. destruct (db s !! e_key e) as [raw|]; [|discriminate]. destruct (unser_header raw e) as [e2 ok]. destruct ok; cbn [negb andb]; [|discriminate].
  destruct (_ =? _); cbn [negb andb]; [|discriminate]. destruct (_ && _); [|discriminate]. now intros [= ->].
Qed.
Lemma stale_key s now e b e1 : stale s now e b = Some e1 -> e_key e1 = e_key e.
Proof.
  unfold stale. destruct (db s !! e_key e) as [raw|]; [|discriminate]. pose proof (unser_key raw e) as K. destruct (unser_header raw e) as [e2 ok]. cbn in K.
  destruct (_ && _ && _ && _); [|discriminate]. now intros [= ->].
Qed.
Lemma get_store s now e b : stale s now e b = None -> o_store (get s now e b) = s.
Proof.
  unfold stale, get. destruct (db s !! e_key e) as [raw|]; [|reflexivity]. destruct (unser_header raw e) as [e2 ok]. destruct ok; cbn [negb andb]; [|reflexivity].
  destruct (_ =? _); cbn [negb andb]; [|reflexivity]. destruct (_ && _); [discriminate|reflexivity].
Qed.
Lemma current_sexec s now k b c : sexec s k (current_prog now k b c) =
  let '(s1, cur, ex) := current_entry s now k b in sexec s1 k (c cur ex).
Proof.
  unfold current_prog, current_entry. destruct (has b _); [|rewrite header_sexec; now destruct (get_header _ _ _)].
  change k with (e_key (empty_entry k)) at 1. rewrite get_sexec. destruct (stale _ _ _ _) as [e1|] eqn:ST.
  - pose proof (stale_key _ _ _ _ _ ST) as K. rewrite (stale_get _ _ _ _ _ ST). cbv zeta. cbn [o_res o_ret o_store o_entry e_key empty_entry] in *.
    rewrite <- K at 1. rewrite remove_sexec. cbv zeta. destruct (remove_res s now e1 (N.lor (N.land behavior_skip_lock behavior_skip_lock) behavior_version_equal)) as (r & ->).
    rewrite K. cbn [sexec]. reflexivity.
  - cbv zeta. cbn [e_key empty_entry]. rewrite (get_store _ _ _ _ ST). destruct (match o_res _ with Some result_not_found => true | _ => _ end); reflexivity.
Qed.
Lemma put_sexec s k raw p : sexec s k (put_prog raw p) = match db_put s k raw with Some s' => sexec s' k p | None => None end.
Proof. unfold put_prog, db_put. destruct (_ <=? _); reflexivity. Qed.

Lemma one_sexec s o : is_truncate o = false -> one s o = sexec s (cmd_key o) (body o).
Proof.
  destruct o as [now e b|now e b|now e v i b|now e b|]; intros T; try discriminate; cbn [one cmd_key body].
  - rewrite get_sexec. destruct (stale _ _ _ _) as [e1|] eqn:ST; [reflexivity|]. cbn. unfold out. now rewrite (get_store _ _ _ _ ST).
  - unfold set_prog, set. rewrite current_sexec. destruct (current_entry _ _ _ _) as [[s1 cur] ex].
    repeat match goal with
      | |- context [match next_version ?a ?b ?c ?d with _ => _ end] => destruct (next_version a b c d)
      | |- context [match memcpy ?a ?b with _ => _ end] => destruct (memcpy a b)
      | |- context [if ?b then _ else _] => destruct b
      | |- option_map _ (Some _) = _ => reflexivity
      | |- context [sexec _ _ (put_prog _ _)] => rewrite put_sexec; destruct (db_put _ _ _)
      | |- _ => reflexivity
      end.
  - unfold incr_prog. cbn [sexec]. unfold stale, incr. cbn [e_key empty_entry]. destruct (db s !! e_key e) as [raw|]; [|reflexivity].
    unfold unser_header. repeat match goal with |- context [if blen raw <? ?n then _ else _] => destruct (blen raw <? n); [reflexivity|] end.
    cbn [negb andb e_size e_expire with_flag with_expire with_size with_version e_key e_flag e_version e_option e_data].
    destruct (_ =? _); cbn [negb andb]; [|reflexivity]. destruct (_ && _); [reflexivity|].
    cbv zeta. rewrite put_sexec. destruct (db_put _ _ _); reflexivity.
  - rewrite remove_sexec. cbv zeta. unfold out. destruct (remove_res s now e b) as (r & ->). cbn. f_equal. f_equal. f_equal.
    unfold remove. destruct (get_header _ _ _) as [cur ex]. destruct (_ && _ && _); [reflexivity|]. destruct ex; reflexivity.
Qed.

(** ** Programs that only read *)
Fixpoint rdonly (p : prog) : Prop :=
  match p with
  | Done _ | Bad => True
  | DbGet c => forall x, rdonly (c x)
  | CGet c => forall x, rdonly (c x)
  | _ => False
  end.
Lemma get_rdonly o : is_get o = true -> rdonly (body o).
Proof.
  destruct o; try discriminate. intros _. cbn. intros [raw|]; [|exact Logic.I]. destruct (unser_header raw e) as [e1 ok].
  repeat match goal with |- context [if ?b then _ else _] => destruct b end; exact Logic.I.
Qed.
Lemma rdonly_access s k p s' p' : rdonly p -> access s k p = Some (s', p') -> s' = s /\ rdonly p'.
Proof. destruct p; cbn; try contradiction; try discriminate; intros R [= <- <-]; auto. Qed.
Lemma rdonly_sexec k p : rdonly p -> forall s r s', sexec s k p = Some (r, s') -> s' = s.
Proof.
  induction p as [r| |c IH|raw q IH|q IH|c IH|v q IH]; cbn; intros R s r0 s'; try contradiction; try discriminate.
  - now intros [= _ <-].
  - intros E. apply (IH _ (R _) _ _ _ E).
  - intros E. apply (IH _ (R _) _ _ _ E).
Qed.

(** * Locks *)
Definition compat (a b : option mode) : Prop :=
  match a, b with Some Wr, Some _ | Some _, Some Wr => False | _, _ => True end.

Lemma insert_lookup_cases {A} (l : list A) t x j y : <[t := x]> l !! j = Some y -> (j = t /\ y = x) \/ (j <> t /\ l !! j = Some y).
Proof.
  intros E. destruct (Nat.eq_dec j t) as [->|N0].
  - left. split; [reflexivity|]. apply list_lookup_insert_Some in E. destruct E as [(_ & -> & _)|(X & _)]; [reflexivity|congruence].
  - right. split; [exact N0|]. now rewrite list_lookup_insert_ne in E by congruence.
Qed.

Section Run.
  Variables (slot : key -> nat) (nslots : nat).
  Hypothesis slots_ok : forall k, (slot k < nslots)%nat.
  Variables (keys : list key) (size : N).
  Notation held := (held slot nslots). Notation can_rd := (can_rd slot nslots). Notation can_wr := (can_wr slot nslots).
  Notation step := (step slot nslots). Notation run_conc := (run_conc slot nslots).

  Definition locks (ths : list thread) : Prop :=
    forall i j a b, i <> j -> ths !! i = Some a -> ths !! j = Some b -> forall l, compat (held (ph a) l) (held (ph b) l).
  Lemma can_rd_ok ths l : can_rd ths l = true -> forall j b, ths !! j = Some b -> held (ph b) l <> Some Wr.
  Proof.
    unfold ConcModel.can_rd. intros F j b E H. rewrite forallb_forall in F. specialize (F b). rewrite H in F. discriminate F. 
    apply elem_of_list_In. eapply elem_of_list_lookup_2; eauto.
  Qed.
  Lemma can_wr_ok ths l : can_wr ths l = true -> forall j b, ths !! j = Some b -> held (ph b) l = None.
  Proof.
    unfold ConcModel.can_wr. intros F j b E. rewrite forallb_forall in F. specialize (F b). destruct (held (ph b) l); [|reflexivity]. discriminate F.
    apply elem_of_list_In. eapply elem_of_list_lookup_2; eauto.
  Qed.
  Lemma compat_sym a b : compat a b -> compat b a. Proof. now destruct a as [[]|], b as [[]|]. Qed.
  Lemma locks_step ths t th p' l' : locks ths -> ths !! t = Some th ->
    (forall l, held p' l = None \/ held p' l = held (ph th) l \/ (held p' l = Some Rd /\ can_rd ths l = true) \/ can_wr ths l = true) ->
    locks (<[t := mkThread p' l']> ths).
  Proof.
    intros L T H.
    assert (K : forall j b, j <> t -> ths !! j = Some b -> forall l, compat (held p' l) (held (ph b) l)).
    { intros j b N0 E l. destruct (H l) as [-> |[-> |[[-> C]|C]]].
      - exact Logic.I.
      - apply (L t j); auto; congruence.
      - pose proof (can_rd_ok ths l C j b E). destruct (held (ph b) l) as [[]|]; cbn; congruence || exact Logic.I.
      - rewrite (can_wr_ok ths l C j b E). now destruct (held p' l) as [[]|]. }
    intros i j a b N0 A B l. apply insert_lookup_cases in A as [[-> ->]|[Ni A]], B as [[-> ->]|[Nj B]].
    - congruence.
    - now apply (K j).
    - apply compat_sym. now apply (K i).
    - now apply (L i j).
  Qed.

  Lemma held_slot_wr o p : is_get o = false -> held (Body o p) (Slot (slot (cmd_key o))) = Some Wr.
  Proof. intros G. cbn. now rewrite Nat.eqb_refl, G. Qed.
  Lemma held_slot_some o p : held (Body o p) (Slot (slot (cmd_key o))) <> None.
  Proof. cbn. rewrite Nat.eqb_refl. discriminate. Qed.
  Lemma held_tbody k p : p = TBody \/ p = TMid -> held p (Slot (slot k)) = Some Wr.
  Proof. pose proof (slots_ok k) as H. apply Nat.ltb_lt in H. intros [-> | ->]; cbn [ConcModel.held]; now rewrite H. Qed.

  (** * The invariant *)
  Definition cmd_in (o : cmd) : Prop := is_truncate o = false -> In (cmd_key o) keys.
  Definition phase_ok (s g : store) (p : phase) : Prop :=
    match p with
    | Want o => cmd_in o
    | HaveWhole o => is_truncate o = false /\ is_get o = false /\ cmd_in o
    | Body o p => is_truncate o = false /\ cmd_in o /\ exec (body o) (view g (cmd_key o)) = exec p (view s (cmd_key o)) /\
                  (is_get o = true -> rdonly p)
    | Release o r => forall o', In o' (follow o r) -> cmd_in o'
    | TMid => db s = ∅
    | _ => True
    end.
  Definition writes (p : phase) (k : key) : Prop := match p with Body o _ => is_get o = false /\ cmd_key o = k | TMid => True | _ => False end.
  Record inv (c : conf) (g : store) : Prop := {
    i_locks : locks (c_threads c);
    i_phase : forall j b, c_threads c !! j = Some b -> phase_ok (c_store c) g (ph b);
    i_todo : forall j b o, c_threads c !! j = Some b -> In o (todo b) -> cmd_in o;
    i_view : forall k, (forall j b, c_threads c !! j = Some b -> ~ writes (ph b) k) -> view (c_store c) k = view g k;
    i_s : cinv keys size (c_store c);
    i_g : cinv keys size g;
  }.

  (** A step which only moves thread [t] on. *)
  Lemma inv_move c g t th p' l' : inv c g -> c_threads c !! t = Some th ->
    (forall l, held p' l = None \/ held p' l = held (ph th) l \/ (held p' l = Some Rd /\ can_rd (c_threads c) l = true) \/ can_wr (c_threads c) l = true) ->
    phase_ok (c_store c) g p' -> (forall o, In o l' -> cmd_in o) -> (forall k, writes (ph th) k -> writes p' k) ->
    inv (mkConf (c_store c) (<[t := mkThread p' l']> (c_threads c))) g.
  Proof.
    intros [L P D V Cs Cg] T H Ph Td W. split; cbn [c_store c_threads]; auto.
    - eapply locks_step; eauto.
    - intros j b E. apply insert_lookup_cases in E as [[-> ->]|[N0 E]]; [exact Ph|eauto].
    - intros j b o E I. apply insert_lookup_cases in E as [[-> ->]|[N0 E]]; [eauto|eauto].
    - intros k F. apply V. intros j b E Wr. destruct (Nat.eq_dec j t) as [->|N0].
      + assert (b = th) by congruence. subst b. refine (F t (mkThread p' l') _ (W k Wr)). rewrite list_lookup_insert; [reflexivity|]. eapply lookup_lt_Some; eauto.
      + refine (F j b _ Wr). now rewrite list_lookup_insert_ne by congruence.
  Qed.

  (** Keys other than that of a writer between its locks. *)
  Lemma other_key c g t th o p j b o' p' : inv c g -> c_threads c !! t = Some th -> ph th = Body o p -> is_get o = false ->
    j <> t -> c_threads c !! j = Some b -> ph b = Body o' p' -> cmd_key o' <> cmd_key o.
  Proof.
    intros I T E G N0 B E' K. pose proof (i_locks _ _ I t j th b (not_eq_sym N0) T B (Slot (slot (cmd_key o)))) as C. rewrite E, E', held_slot_wr in C by exact G.
    pose proof (held_slot_some o' p') as X. rewrite K in X. now destruct (held (Body o' p') _) as [[]|].
  Qed.
  Lemma no_mid c g t th o p j b : inv c g -> c_threads c !! t = Some th -> ph th = Body o p -> c_threads c !! j = Some b -> ph b <> TMid.
  Proof.
    intros I T E B M. destruct (Nat.eq_dec j t) as [->|N0]; [congruence|].
    pose proof (i_locks _ _ I t j th b (not_eq_sym N0) T B (Slot (slot (cmd_key o)))) as C. rewrite E, M, (held_tbody (cmd_key o) TMid) in C by auto.
    pose proof (held_slot_some o p) as X. now destruct (held (Body o p) _) as [[]|].
  Qed.
  Lemma no_body c g t th : inv c g -> c_threads c !! t = Some th -> ph th = TBody \/ ph th = TMid ->
    forall j b o p, c_threads c !! j = Some b -> ph b <> Body o p.
  Proof.
    intros I T E j b o p B Eb. destruct (Nat.eq_dec j t) as [->|N0]; [destruct E; congruence|].
    pose proof (i_locks _ _ I j t b th N0 B T (Slot (slot (cmd_key o)))) as C. rewrite Eb, (held_tbody (cmd_key o) (ph th)) in C by exact E.
    pose proof (held_slot_some o p) as X. now destruct (held (Body o p) _) as [[]|].
  Qed.

  (** One access of a command between its locks. *)
  Lemma inv_access c g t th o p s' p' : inv c g -> c_threads c !! t = Some th -> ph th = Body o p -> access (c_store c) (cmd_key o) p = Some (s', p') ->
    inv (mkConf s' (<[t := mkThread (Body o p') (todo th)]> (c_threads c))) g.
  Proof.
    intros I T E A. pose proof (i_phase _ _ I t th T) as Pt. rewrite E in Pt. destruct Pt as (Tr & Ci & Ex & Ro).
    destruct (access_ok keys size (c_store c) (cmd_key o) p s' p' (i_s _ _ I) (Ci Tr) A) as (C' & Ex' & _ & Ot).
    destruct (is_get o) eqn:G.
    - destruct (rdonly_access _ _ _ _ _ (Ro eq_refl) A) as [-> Rp]. apply (inv_move c g t th); auto.
      + intros l. right. left. rewrite E. cbn. reflexivity.
      + cbn. rewrite <- Ex'. auto.
      + intros x X. eapply i_todo; eauto.
      + rewrite E. intros k [X _]. congruence.
    - split; cbn [c_store c_threads].
      + eapply locks_step; [apply (i_locks _ _ I)|exact T|]. intros l. right. left. rewrite E. reflexivity.
      + intros j b B. apply insert_lookup_cases in B as [[-> ->]|[N0 B]].
        * cbn. rewrite <- Ex'. repeat split; auto. congruence.
        * pose proof (i_phase _ _ I j b B) as P. destruct (ph b) as [|o'|o'|o' q|o' r|i| | |i] eqn:Eb; try exact P.
          -- cbn [phase_ok] in P |- *. rewrite Ot; [exact P|]. eapply (other_key c g t th o); eauto.
          -- exact (False_ind _ (no_mid c g t th o p j b I T E B Eb)).
      + intros j b x B X. apply insert_lookup_cases in B as [[-> ->]|[N0 B]]; [eapply (i_todo _ _ I t th); eauto|eapply i_todo; eauto].
      + intros k F. rewrite Ot.
        * apply (i_view _ _ I). intros j b B W. destruct (Nat.eq_dec j t) as [->|N0].
          -- assert (b = th) by congruence. subst b. rewrite E in W. refine (F t (mkThread (Body o p') (todo th)) _ W). rewrite list_lookup_insert; [reflexivity|]. eapply lookup_lt_Some; eauto.
          -- refine (F j b _ W). now rewrite list_lookup_insert_ne by congruence.
        * intros ->. refine (F t (mkThread (Body o p') (todo th)) _ (conj G eq_refl)). rewrite list_lookup_insert; [reflexivity|]. eapply lookup_lt_Some; eauto.
      + exact C'.
      + apply (i_g _ _ I).
  Qed.
  (** A command takes effect. *)
  Lemma follow_in o r s g : cmd_in o -> is_truncate o = false -> one s o = Some (r, g) -> forall o', In o' (follow o r) -> cmd_in o'.
  Proof.
    intros Ci Tr O o' I _. specialize (Ci Tr). unfold follow in I. destruct (r_expired r) as [e1|] eqn:X; [|destruct I].
    destruct o as [now e b|now e b|now e v i b|now e b|]; try (destruct I; fail); destruct I as [<-|[]]; cbn [cmd_key] in *; cbn [one] in O.
    - destruct (stale _ _ _ _) as [e2|] eqn:St; injection O as <- <-; cbn in X; [|discriminate]. injection X as <-. now rewrite (stale_key _ _ _ _ _ St).
    - destruct (stale _ _ _ _) as [e2|] eqn:St.
      + injection O as <- <-. cbn in X. injection X as <-. now rewrite (stale_key _ _ _ _ _ St).
      + destruct (incr _ _ _ _ _ _); [|discriminate]. injection O as <- <-. discriminate.
  Qed.
  Lemma inv_effect c g t th o r : inv c g -> c_threads c !! t = Some th -> ph th = Body o (Done r) ->
    exists g', one g o = Some (r, g') /\ (forall o', In o' (follow o r) -> cmd_in o') /\
      forall p' l', (forall l, held p' l = None \/ held p' l = held (ph th) l) -> (forall s, phase_ok s g' p') ->
        (forall x, In x l' -> cmd_in x) ->
        inv (mkConf (c_store c) (<[t := mkThread p' l']> (c_threads c))) g'.
  Proof.
    intros I T E. pose proof (i_phase _ _ I t th T) as Pt. rewrite E in Pt. destruct Pt as (Tr & Ci & Ex & Ro).
    pose proof (sexec_ok keys size (cmd_key o) (body o) (Ci Tr) g (i_g _ _ I)) as S0. rewrite Ex in S0. cbn [exec] in S0.
    destruct S0 as (g' & A & V & C' & Ot). rewrite <- (one_sexec g o Tr) in A. exists g'. split; [exact A|]. split; [eapply follow_in; eauto|]. intros p' l' H Ph Td.
    assert (H' : forall l, held p' l = None \/ held p' l = held (ph th) l \/ (held p' l = Some Rd /\ can_rd (c_threads c) l = true) \/ can_wr (c_threads c) l = true)
      by (intros l; destruct (H l); auto).
    destruct (is_get o) eqn:G.
    - rewrite one_sexec in A by exact Tr. apply rdonly_sexec in A; [|now apply get_rdonly]. subst g'. apply (inv_move c g t th); auto.
      rewrite E. intros k [X _]. congruence.
    - split; cbn [c_store c_threads].
      + eapply locks_step; [apply (i_locks _ _ I)|exact T|exact H'].
      + intros j b B. apply insert_lookup_cases in B as [[-> ->]|[N0 B]].
        * apply Ph.
        * pose proof (i_phase _ _ I j b B) as P. destruct (ph b) as [|o'|o'|o' q|o' r'|i| | |i] eqn:Eb; try exact P.
          cbn [phase_ok] in P |- *. rewrite Ot; [exact P|]. eapply (other_key c g t th o); eauto.
      + intros j b x B X. apply insert_lookup_cases in B as [[-> ->]|[N0 B]]; [auto|eapply i_todo; eauto].
      + intros k F. destruct (List.list_eq_dec N.eq_dec k (cmd_key o)) as [->|Nk]; [now rewrite V|]. rewrite Ot by exact Nk.
        apply (i_view _ _ I). intros j b B W. destruct (Nat.eq_dec j t) as [->|N0].
        * assert (b = th) by congruence. subst b. rewrite E in W. destruct W as [_ W]. congruence.
        * refine (F j b _ W). now rewrite list_lookup_insert_ne by congruence.
      + apply (i_s _ _ I).
      + exact C'.
  Qed.

  Lemma replay_nolin g ev : forallb (fun x => negb (is_lin x)) ev = true -> replay g ev g.
  Proof. induction ev as [|x ev IH]; cbn; intros H; [constructor|]. apply andb_prop in H as [H1 H2]. apply replay_skip; [now destruct (is_lin x)|auto]. Qed.
  Lemma replay_app s a g b g' : replay s a g -> replay g b g' -> replay s (a ++ b) g'.
  Proof. induction 1; intros R; cbn; [exact R| |]; [eapply replay_lin; eauto|apply replay_skip; auto]. Qed.

  Lemma held_get_want o p : is_get o = true -> forall l, held (Body o p) l = None \/ l = Slot (slot (cmd_key o)) /\ held (Body o p) l = Some Rd.
  Proof. intros G [|i]; cbn; rewrite G; [auto|]. destruct (Nat.eqb_spec i (slot (cmd_key o))) as [->|]; auto. Qed.

  Lemma inv_step c g t c' ev : inv c g -> step c t = Some (c', ev) -> exists g', inv c' g' /\ replay g ev g'.
  Proof.
    intros I. unfold ConcModel.step. destruct (c_threads c !! t) as [th|] eqn:T; [|discriminate].
    assert (Td : forall o, In o (todo th) -> cmd_in o) by (intros o X; eapply i_todo; eauto).
    pose proof (i_phase _ _ I t th T) as P. destruct (ph th) as [|o|o|o p|o r|i| | |i] eqn:E.
    - destruct (todo th) as [|o l] eqn:D; [discriminate|]. intros [= <- <-]. exists g. split; [|now apply replay_nolin].
      refine (inv_move c g t th _ _ I T _ _ _ _); [intros []; now left|cbn; apply Td; now left|intros x X; apply Td; now right|now rewrite E].
    - destruct (is_truncate o) eqn:Tr; [|destruct (is_get o) eqn:G].
      + destruct (can_wr _ _) eqn:C; [|discriminate]. intros [= <- <-]. exists g. split; [|now apply replay_nolin].
        refine (inv_move c g t th _ _ I T _ _ Td _); [|exact Logic.I|now rewrite E]. intros [|i]; [auto|now left].
      + destruct (can_rd _ _) eqn:C; [|discriminate]. intros [= <- <-]. exists g. split; [|now apply replay_nolin].
        refine (inv_move c g t th _ _ I T _ _ Td _); [| |now rewrite E].
        * intros l. destruct (held_get_want o (body o) G l) as [X|[-> X]]; auto.
        * cbn. repeat split; auto; [|now intros _; apply get_rdonly]. f_equal. symmetry. apply (i_view _ _ I). intros j b B W.
          pose proof (can_rd_ok _ _ C j b B) as Q. destruct (ph b) as [| | |o' q| | | | |] eqn:Eb; try contradiction.
          -- destruct W as [G' K]. rewrite <- K in Q. now rewrite held_slot_wr in Q.
          -- rewrite (held_tbody (cmd_key o) TMid) in Q; auto.
      + destruct (can_rd _ _) eqn:C; [|discriminate]. intros [= <- <-]. exists g. split; [|now apply replay_nolin].
        refine (inv_move c g t th _ _ I T _ _ Td _); [|split; auto|now rewrite E]. intros [|i]; [right; right; left; auto|now left].
    - destruct P as (Tr & G & Ci). destruct (can_wr _ _) eqn:C; [|discriminate]. intros [= <- <-]. exists g. split; [|now apply replay_nolin].
      refine (inv_move c g t th _ _ I T _ _ Td _); [| |now rewrite E].
      + intros [|i]; [right; left; rewrite E; cbn; now rewrite G|]. cbn. destruct (Nat.eqb_spec i (slot (cmd_key o))) as [->|]; auto.
      + cbn. repeat split; auto; [|congruence]. f_equal. symmetry. apply (i_view _ _ I). intros j b B W.
        pose proof (can_wr_ok _ _ C j b B) as Q. destruct (ph b) as [| | |o' q| | | | |] eqn:Eb; try contradiction.
        * destruct W as [G' K]. rewrite <- K in Q. rewrite held_slot_wr in Q by exact G'. discriminate Q.
        * rewrite (held_tbody (cmd_key o) TMid) in Q by auto. discriminate Q.
    - assert (AC : access (c_store c) (cmd_key o) p = None \/ exists s' p', access (c_store c) (cmd_key o) p = Some (s', p')) by (destruct (access _ _ p) as [[s' p']|]; eauto).
      assert (DN : (exists r, p = Done r) \/ access (c_store c) (cmd_key o) p = None /\ p = Bad \/ exists s' p', access (c_store c) (cmd_key o) p = Some (s', p'))
        by (destruct p; cbn in *; eauto).
      destruct DN as [(r & ->)|[[_ ->]|(s' & p' & A)]].
      + destruct (inv_effect c g t th o r I T E) as (g' & O & Fo & K). destruct (is_get o) eqn:G; intros [= <- <-]; exists g'; (split; [apply K|]).
        * intros l. now left.
        * intros s. exact Logic.I.
        * intros x X. apply in_app_or in X as [X|X]; auto.
        * eapply replay_lin; [exact O|]. now apply replay_nolin.
        * intros l. rewrite E. destruct l as [|i]; cbn; [rewrite G; auto|auto].
        * intros s. exact Fo.
        * exact Td.
        * eapply replay_lin; [exact O|]. now apply replay_nolin.
      + discriminate.
      + pose proof (inv_access c g t th o p s' p' I T E A) as K.
        destruct p; try discriminate A; rewrite A; intros [= <- <-]; exists g; (split; [exact K|now apply replay_nolin]).
    - intros [= <- <-]. exists g. split; [|now apply replay_nolin]. refine (inv_move c g t th _ _ I T _ _ _ _); [intros []; now left|exact Logic.I| |now rewrite E].
      intros x X. apply in_app_or in X as [X|X]; auto.
    - destruct (Nat.ltb i nslots) eqn:Li.
      + destruct (can_wr _ _) eqn:C; [|discriminate]. intros [= <- <-]. exists g. split; [|now apply replay_nolin].
        refine (inv_move c g t th _ _ I T _ _ Td _); [|exact Logic.I|now rewrite E]. intros [|j]; [right; left; now rewrite E|]. rewrite E. cbn [ConcModel.held].
        destruct (Nat.eq_dec j i) as [->|Nj]; [auto|]. right. left. assert ((j <? S i)%nat = (j <? i)%nat) as -> by lia. reflexivity.
      + intros [= <- <-]. exists g. split; [|now apply replay_nolin].
        refine (inv_move c g t th _ _ I T _ _ Td _); [|exact Logic.I|now rewrite E]. intros [|j]; [right; left; now rewrite E|]. rewrite E. cbn [ConcModel.held].
        destruct (j <? nslots)%nat eqn:Lj; [|auto]. assert ((j <? i)%nat = true) as -> by lia. auto.
    - intros [= <- <-]. exists g. split; [|now apply replay_nolin]. split; cbn [c_store c_threads].
      + eapply locks_step; [apply (i_locks _ _ I)|exact T|]. intros l. right. left. rewrite E. reflexivity.
      + intros j b B. apply insert_lookup_cases in B as [[-> ->]|[N0 B]]; [reflexivity|].
        pose proof (i_phase _ _ I j b B) as Q. destruct (ph b) as [|o'|o'|o' q|o' r'|i| | |i] eqn:Eb; try exact Q; [|reflexivity].
        exfalso. apply (no_body c g t th I T (or_introl E) j b o' q B Eb).
      + intros j b x B X. apply insert_lookup_cases in B as [[-> ->]|[N0 B]]; [auto|eapply i_todo; eauto].
      + intros k F. exfalso. refine (F t (mkThread TMid (todo th)) _ Logic.I). rewrite list_lookup_insert; [reflexivity|]. eapply lookup_lt_Some; eauto.
      + destruct (i_s _ _ I); split; auto.
      + apply (i_g _ _ I).
    - intros [= <- <-]. exists (truncate g). split; [|eapply replay_lin; [reflexivity|constructor]]. cbn in P. split; cbn [c_store c_threads].
      + eapply locks_step; [apply (i_locks _ _ I)|exact T|]. intros l. right. left. rewrite E. reflexivity.
      + intros j b B. apply insert_lookup_cases in B as [[-> ->]|[N0 B]]; [exact Logic.I|].
        pose proof (i_phase _ _ I j b B) as Q. destruct (ph b) as [|o'|o'|o' q|o' r'|i| | |i] eqn:Eb; try exact Q.
        exfalso. apply (no_body c g t th I T (or_intror E) j b o' q B Eb).
      + intros j b x B X. apply insert_lookup_cases in B as [[-> ->]|[N0 B]]; [auto|eapply i_todo; eauto].
      + intros k F. unfold view. cbn. now rewrite P.
      + destruct (i_s _ _ I); split; cbn; auto; [constructor|tauto].
      + destruct (i_g _ _ I); split; cbn; auto; [constructor|tauto].
    - destruct i as [|i]; intros [= <- <-]; exists g; (split; [|now apply replay_nolin]); refine (inv_move c g t th _ _ I T _ _ Td _); try exact Logic.I; try (now rewrite E).
      + intros []; now left.
      + intros [|j]; [right; left; now rewrite E|]. rewrite E. cbn [ConcModel.held]. destruct (j <? i)%nat eqn:Lj; [|auto]. assert ((j <? S i)%nat = true) as -> by lia. auto.
  Qed.

  (** ** Traces *)
  Inductive blocks (t : nat) : list event -> Prop :=
  | blocks_nil : blocks t []
  | blocks_snoc l o r : blocks t l -> blocks t (l ++ [Inv t o; Lin t o r; Res t o r]).
  Definition trep : reply := mkReply 0 None (empty_entry []) None.
  Definition status (t : nat) (p : phase) : list event :=
    match p with
    | Idle => []
    | Want o | HaveWhole o | Body o _ => [Inv t o]
    | Release o r => [Inv t o; Lin t o r]
    | TLock _ | TBody | TMid => [Inv t KTruncate]
    | TUnlock _ => [Inv t KTruncate; Lin t KTruncate trep]
    end.
  Definition tinv (c : conf) (T : list event) : Prop :=
    forall t, exists b, blocks t b /\ of_thread t T = b ++ match c_threads c !! t with Some th => status t (ph th) | None => [] end.
  Lemma of_thread_app t a b : of_thread t (a ++ b) = of_thread t a ++ of_thread t b.
  Proof. apply List.filter_app. Qed.
  Lemma of_thread_same t ev : Forall (fun x => thread_of x = t) ev -> of_thread t ev = ev.
  Proof. induction 1 as [|x l H F IH]; [reflexivity|]. cbn. rewrite H, Nat.eqb_refl. f_equal. exact IH. Qed.
  Lemma of_thread_other t t' ev : t <> t' -> Forall (fun x => thread_of x = t) ev -> of_thread t' ev = [].
  Proof. intros N0. induction 1 as [|x l H F IH]; [reflexivity|]. cbn. rewrite H. destruct (Nat.eqb_spec t t'); [congruence|exact IH]. Qed.
  Lemma tinv_step c T t c' ev : tinv c T -> step c t = Some (c', ev) -> tinv c' (T ++ ev).
  Proof.
    intros TI ST.
    assert (exists th p' l', c_threads c !! t = Some th /\ c_threads c' = <[t := mkThread p' l']> (c_threads c) /\ Forall (fun x => thread_of x = t) ev /\
      (status t (ph th) ++ ev = status t p' \/ exists o r, status t (ph th) ++ ev = [Inv t o; Lin t o r; Res t o r] /\ status t p' = [])) as (th & p' & l' & L & C' & Fe & Sx).
    { unfold ConcModel.step in ST. destruct (c_threads c !! t) as [th|] eqn:Et; [|discriminate]. exists th. destruct (ph th) as [|o|o|o p|o r|i| | |i] eqn:E.
      - destruct (todo th) as [|o l]; [discriminate|]. injection ST as <- <-. do 2 eexists. split; [reflexivity|]. split; [reflexivity|]. split; [repeat constructor|now left].
      - destruct (is_truncate o) eqn:Tr; [|destruct (is_get o)]; (destruct (ConcModel.can_wr _ _ _ _) || destruct (ConcModel.can_rd _ _ _ _)); try discriminate; injection ST as <- <-;
          do 2 eexists; (split; [reflexivity|]); (split; [reflexivity|]); (split; [repeat constructor|]); left; cbn; try reflexivity. now destruct o.
      - destruct (ConcModel.can_wr _ _ _ _); try discriminate; injection ST as <- <-. do 2 eexists. split; [reflexivity|]. split; [reflexivity|]. split; [repeat constructor|now left].
      - destruct p; try discriminate ST; try (cbn [access] in ST; injection ST as <- <-; do 2 eexists; (split; [reflexivity|]); (split; [reflexivity|]); (split; [repeat constructor|now left])).
        destruct (is_get o); injection ST as <- <-; do 2 eexists; (split; [reflexivity|]); (split; [reflexivity|]); (split; [repeat constructor|]).
        + right. exists o, r. split; reflexivity.
        + left. reflexivity.
      - injection ST as <- <-. do 2 eexists. split; [reflexivity|]. split; [reflexivity|]. split; [repeat constructor|]. right. exists o, r. split; reflexivity.
      - destruct (_ <? _)%nat; [destruct (ConcModel.can_wr _ _ _ _); [|discriminate]|]; injection ST as <- <-; do 2 eexists; (split; [reflexivity|]); (split; [reflexivity|]); (split; [repeat constructor|now left]).
      - injection ST as <- <-. do 2 eexists. split; [reflexivity|]. split; [reflexivity|]. split; [repeat constructor|now left].
      - injection ST as <- <-. do 2 eexists. split; [reflexivity|]. split; [reflexivity|]. split; [repeat constructor|now left].
      - destruct i; injection ST as <- <-; do 2 eexists; (split; [reflexivity|]); (split; [reflexivity|]); (split; [repeat constructor|]); [right; do 2 eexists; split; reflexivity|now left]. }
    intros t'. destruct (TI t') as (b & B & O). rewrite of_thread_app, O, C'. destruct (Nat.eq_dec t' t) as [->|N0].
    - rewrite L. rewrite list_lookup_insert by (eapply lookup_lt_Some; eauto). cbn [ph]. rewrite of_thread_same by exact Fe. rewrite <- app_assoc.
      destruct Sx as [-> |(o & r & -> & ->)]; [now exists b|]. exists (b ++ [Inv t o; Lin t o r; Res t o r]). split; [now constructor|now rewrite app_nil_r].
    - rewrite list_lookup_insert_ne by congruence. rewrite (of_thread_other t t') by (congruence || exact Fe). rewrite app_nil_r. now exists b.
  Qed.
  Lemma orderly_app t a b : blocks t a -> orderly t b -> orderly t (a ++ b).
  Proof. intros B. revert b. induction B as [|l o r B IH]; intros b O; [exact O|]. rewrite <- app_assoc. apply IH. cbn. now constructor. Qed.
  Lemma status_orderly t p : orderly t (status t p).
  Proof. destruct p; constructor. Qed.

  Lemma run_inv sched : forall c g T s0, inv c g -> tinv c T -> replay s0 T g -> let '(c', tr) := run_conc c sched in
    exists g', inv c' g' /\ tinv c' (T ++ tr) /\ replay s0 (T ++ tr) g'.
  Proof.
    induction sched as [|t l IH]; intros c g T s0 I TI R; cbn.
    - exists g. now rewrite app_nil_r.
    - destruct (step c t) as [[c' ev]|] eqn:ST; [|now apply IH with (g := g)].
      destruct (inv_step c g t c' ev I ST) as (g' & I' & R'). pose proof (tinv_step c T t c' ev TI ST) as TI'.
      specialize (IH c' g' (T ++ ev) s0 I' TI' (replay_app _ _ _ _ _ R R')). destruct (run_conc c' l) as [c'' tr]. destruct IH as (g'' & A & B & C). rewrite app_assoc. exists g''. auto.
  Qed.
  Lemma start_lookup s work j b : c_threads (start s work) !! j = Some b -> exists l, work !! j = Some l /\ b = mkThread Idle l.
  Proof. unfold start. cbn. rewrite list_lookup_fmap. destruct (work !! j) as [l|]; [|discriminate]. intros [= <-]. eauto. Qed.
  Lemma start_inv s work : cinv keys size s -> (forall l o, In l work -> In o l -> cmd_in o) -> inv (start s work) s.
  Proof.
    intros C W. split; auto.
    - intros i j a b _ A B l. apply start_lookup in A as (x & _ & ->). exact Logic.I.
    - intros j b B. apply start_lookup in B as (l & _ & ->). exact Logic.I.
    - intros j b o B I. apply start_lookup in B as (l & L & ->). eapply W; [|exact I]. apply elem_of_list_In. eapply elem_of_list_lookup_2; eauto.
  Qed.
  Lemma start_tinv s work : tinv (start s work) [].
  Proof. intros t. exists []. split; [constructor|]. cbn. destruct (c_threads (start s work) !! t) as [th|] eqn:E; [|cbn in E; now rewrite E]. pose proof E as E'. apply start_lookup in E as (l & _ & ->). cbn in E'. now rewrite E'. Qed.
End Run.

(** Concurrent commands look like commands one after the other. *)
Lemma conc_linearizable slot nslots s work sched : (forall k, (slot k < nslots)%nat) -> roomy s work ->
  let '(c, tr) := run_conc slot nslots (start s work) sched in
  exists g, linearizable s (calls tr) g /\ (quiet c -> forall k, view (c_store c) k = view g k) /\
    (forall th o, In th (c_threads c) -> ph th = Body o Bad -> one g o = None).
Proof.
  intros SL (keys & Ro & ND & K1 & K2).
  assert (I0 : inv slot nslots keys (hcache_size s) (start s work) s).
  { apply start_inv; [split; auto|]. intros l o A B Tr. eauto. }
  pose proof (run_inv slot nslots SL keys (hcache_size s) sched _ _ [] s I0 (start_tinv s work) (replay_nil s)) as R.
  destruct (run_conc _ _ _ _) as [c tr]. destruct R as (g & I & TI & R). cbn [app] in *. exists g. split; [|split].
  - exists tr. split; [reflexivity|]. split; [|exact R]. intros t. destruct (TI t) as (b & B & ->). apply orderly_app; [exact B|].
    destruct (c_threads c !! t); [apply status_orderly|constructor].
  - intros Q k. apply (i_view _ _ _ _ _ _ I). intros j b B W. unfold quiet in Q. rewrite List.Forall_forall in Q. rewrite (Q b) in W; [exact W|].
    apply elem_of_list_In. eapply elem_of_list_lookup_2; eauto.
  - intros th o IN P. apply elem_of_list_In, elem_of_list_lookup_1 in IN as (j & B). pose proof (i_phase _ _ _ _ _ _ I j th B) as Q. rewrite P in Q. destruct Q as (Tr & Ci & E & _).
    rewrite one_sexec by exact Tr. pose proof (sexec_ok keys (hcache_size s) (cmd_key o) (body o) (Ci Tr) g (i_g _ _ _ _ _ _ I)) as X. rewrite E in X. exact X.
Qed.

(** A get or incr alone is its command, followed by the removal it asks for. *)
Lemma run_cmds_get s now e b : exists r s1, one s (KGet now e b) = Some (r, s1) /\
  match follow (KGet now e b) r with [] => o_store (get s now e b) = s1 | o :: _ => exists r', one s1 o = Some (r', o_store (get s now e b)) end /\
  r_ret r = o_ret (get s now e b) /\ r_res r = o_res (get s now e b).
Proof.
  cbn [one]. destruct (stale s now e b) as [e1|] eqn:St.
  - do 2 eexists. split; [reflexivity|]. cbn [follow r_expired one]. rewrite (stale_get _ _ _ _ _ St). cbn. split; [eexists; reflexivity|auto].
  - do 2 eexists. split; [reflexivity|]. cbn. auto.
Qed.
Lemma run_cmds_incr s now e v i b o : incr s now e v i b = Some o -> exists r s1, one s (KIncr now e v i b) = Some (r, s1) /\
  match follow (KIncr now e v i b) r with [] => o_store o = s1 | x :: _ => exists r', one s1 x = Some (r', o_store o) end /\
  r_ret r = o_ret o /\ r_res r = o_res o.
Proof.
  intros H. cbn [one]. destruct (stale s now (empty_entry (e_key e)) b) as [e1|] eqn:St.
  - do 2 eexists. split; [reflexivity|]. cbn [follow r_expired one]. revert St H. unfold stale, incr. cbn [e_key empty_entry]. destruct (db s !! e_key e) as [raw|]; [|discriminate].
    unfold unser_header. repeat match goal with |- context [if blen raw <? ?n then _ else _] => destruct (blen raw <? n); [discriminate|] end.
    cbn [negb andb e_size e_expire with_flag with_expire with_size with_version e_key e_flag e_version e_option e_data].
    destruct (_ =? _); cbn [negb andb]; [|discriminate]. destruct (_ && _); [|discriminate]. intros [= <-] [= <-]. cbn. split; [eexists; reflexivity|auto].
  - rewrite H. do 2 eexists. split; [reflexivity|]. cbn. auto.
Qed.
