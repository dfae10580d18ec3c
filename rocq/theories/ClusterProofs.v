(** Proofs for the cluster model: ordered maps. *)
From Coq Require Import ZArith NArith List Bool Lia ZifyBool ZifyNat ZifyN.
From Verif Require Import Base BaseLemmas TextModel ClusterModel ClusterSpec.
Import ListNotations.
Local Open Scope Z_scope.
Local Open Scope list_scope.

Section MapLemmas.
  Context {K V : Type} (eqb ltb : K -> K -> bool).
  Hypothesis eqb_spec : forall a b, eqb a b = true <-> a = b.
  Hypothesis lt_irrefl : forall a, ltb a a = false.
  Hypothesis lt_trans : forall a b c, ltb a b = true -> ltb b c = true -> ltb a c = true.
  Hypothesis lt_total : forall a b, ltb a b = false -> eqb a b = false -> ltb b a = true.
  Implicit Types m : list (K * V).
  Lemma eqb_refl' a : eqb a a = true. Proof. now apply eqb_spec. Qed.
  Lemma eqb_neq' a b : eqb a b = false <-> a <> b.
  Proof. split; intros H; [intros E; apply eqb_spec in E; congruence|]. destruct (eqb a b) eqn:E; auto. apply eqb_spec in E. easy. Qed.
  Lemma mfind_mset k v k' m : mfind eqb k' (mset eqb ltb k v m) = if eqb k' k then Some v else mfind eqb k' m.
  Proof.
    induction m as [|(k0, v0) m IH]; cbn [mset mfind].
    - reflexivity.
    - destruct (eqb k k0) eqn:E.
      + apply eqb_spec in E as <-. cbn [mfind]. now destruct (eqb k' k).
      + destruct (ltb k k0); cbn [mfind]; [easy|]. rewrite IH. destruct (eqb k' k0) eqn:E0; [|easy].
        apply eqb_spec in E0 as ->. destruct (eqb k0 k) eqn:E1; [|easy]. apply eqb_spec in E1 as ->. now rewrite eqb_refl' in E.
  Qed.
  Lemma mset_keys k v m x : In x (map fst (mset eqb ltb k v m)) <-> x = k \/ In x (map fst m).
  Proof.
    induction m as [|(k0, v0) m IH]; cbn [mset map fst In].
    - intuition.
    - destruct (eqb k k0) eqn:E.
      + apply eqb_spec in E as <-. cbn [map fst In]. intuition.
      + destruct (ltb k k0); cbn [map fst In]; [intuition|]. rewrite IH. intuition.
  Qed.
  Lemma mset_ordered k v m : ordered ltb m -> ordered ltb (mset eqb ltb k v m).
  Proof.
    induction 1 as [|k0 v0 m H O IH]; cbn [mset].
    - constructor; [easy|constructor].
    - destruct (eqb k k0) eqn:E.
      + apply eqb_spec in E as <-. now constructor.
      + destruct (ltb k k0) eqn:L.
        * constructor; [|now constructor]. cbn [map fst In]. intros x [<-|Hx]; [easy|]. eapply lt_trans; eauto.
        * constructor; [|easy]. intros x Hx. apply mset_keys in Hx as [->|Hx]; auto.
  Qed.
  Lemma ordered_nodup m : ordered ltb m -> NoDup (map fst m).
  Proof.
    induction 1 as [|k v m H O IH]; cbn [map fst]; constructor; auto. intros X. specialize (H _ X). now rewrite lt_irrefl in H.
  Qed.
  Lemma mfind_in k v m : mfind eqb k m = Some v -> In (k, v) m.
  Proof.
    induction m as [|(k0, v0) m IH]; cbn [mfind]; [easy|]. destruct (eqb k k0) eqn:E.
    - intros [= <-]. apply eqb_spec in E as <-. now left.
    - right. auto.
  Qed.
  Lemma in_mfind k v m : ordered ltb m -> In (k, v) m -> mfind eqb k m = Some v.
  Proof.
    induction 1 as [|k0 v0 m H O IH]; cbn [In mfind]; [easy|]. intros [[= <- <-]|X].
    - now rewrite eqb_refl'.
    - destruct (eqb k k0) eqn:E; auto. apply eqb_spec in E as <-.
      assert (L : ltb k k = true) by (apply H; change k with (fst (k, v)); now apply in_map). now rewrite lt_irrefl in L.
  Qed.
  Lemma mfind_none k m : mfind eqb k m = None <-> ~ In k (map fst m).
  Proof.
    induction m as [|(k0, v0) m IH]; cbn [mfind map fst In]; [intuition|]. destruct (eqb k k0) eqn:E.
    - apply eqb_spec in E as <-. intuition congruence.
    - apply eqb_neq' in E. rewrite IH. intuition.
  Qed.
  Lemma mfind_merase k k' m : mfind eqb k' (merase eqb k m) = if eqb k' k then None else mfind eqb k' m.
  Proof.
    unfold merase. induction m as [|(k0, v0) m IH]; cbn [filter mfind fst].
    - now destruct (eqb k' k).
    - destruct (eqb k k0) eqn:E; cbn [negb].
      + apply eqb_spec in E as <-. rewrite IH. now destruct (eqb k' k).
      + cbn [mfind]. rewrite IH. destruct (eqb k' k0) eqn:E0; [|easy]. apply eqb_spec in E0 as ->.
        destruct (eqb k0 k) eqn:E1; [|easy]. apply eqb_spec in E1 as ->. now rewrite eqb_refl' in E.
  Qed.
  Lemma filter_ordered (f : K * V -> bool) m : ordered ltb m -> ordered ltb (filter f m).
  Proof.
    induction 1 as [|k v m H O IH]; cbn [filter]; [constructor|]. destruct (f (k, v)); auto. constructor; auto.
    intros x Hx. apply H. apply in_map_iff in Hx as (y & <- & Hy). apply filter_In in Hy as (Hy & _). now apply in_map.
  Qed.
  Lemma mset_length_new k v m : mfind eqb k m = None -> List.length (mset eqb ltb k v m) = S (List.length m).
  Proof.
    induction m as [|(k0, v0) m IH]; cbn [mfind mset]; [easy|]. destruct (eqb k k0); [easy|]. intros N.
    destruct (ltb k k0); [easy|]. cbn [List.length]. now rewrite IH.
  Qed.
End MapLemmas.

Lemma blt_irrefl a : blt a a = false.
Proof. induction a as [|x a IH]; cbn [blt]; auto. now rewrite N.ltb_irrefl. Qed.
Lemma blt_trans a b c : blt a b = true -> blt b c = true -> blt a c = true.
Proof.
  revert b c. induction a as [|x a IH]; intros [|y b] [|z c]; cbn [blt]; try easy.
  destruct (N.ltb_spec x y), (N.ltb_spec y z), (N.ltb_spec x z); try easy; try lia;
    destruct (N.ltb_spec y x); try easy; try lia; destruct (N.ltb_spec z y); try easy; try lia;
    destruct (N.ltb_spec z x); try easy; try lia. apply IH.
Qed.
Lemma blt_total a b : blt a b = false -> beq a b = false -> blt b a = true.
Proof.
  revert b. induction a as [|x a IH]; intros [|y b]; cbn [blt]; try easy.
  destruct (N.ltb_spec x y); [easy|]. destruct (N.ltb_spec y x); [easy|]. assert (x = y) as -> by lia.
  intros H1 H2. apply IH; auto. apply beq_neq. intros ->. rewrite beq_refl in H2. easy.
Qed.
Lemma beq_iff a b : beq a b = true <-> a = b.
Proof. split; [apply beq_eq|intros ->; apply beq_refl]. Qed.
Lemma role_eqb_spec a b : reflect (a = b) (role_eqb a b).
Proof. destruct a, b; constructor; easy. Qed.
Lemma state_eqb_spec a b : reflect (a = b) (state_eqb a b).
Proof. destruct a, b; constructor; easy. Qed.
Lemma beq_spec a b : reflect (a = b) (beq a b).
Proof. destruct (beq a b) eqn:E; constructor; [now apply beq_eq|]. intros ->. now rewrite beq_refl in E. Qed.

Notation nordered := (@ordered bytes node blt).
Notation pordered := (@ordered Z partition Z.ltb).
Lemma nfind_set k v k' m : nfind k' (nset k v m) = if beq k' k then Some v else nfind k' m.
Proof. apply mfind_mset, beq_iff. Qed.
Lemma nset_ordered k v m : nordered m -> nordered (nset k v m).
Proof. apply mset_ordered; [apply beq_iff|apply blt_trans|apply blt_total]. Qed.
Lemma nfind_erase k k' m : nfind k' (nerase k m) = if beq k' k then None else nfind k' m.
Proof. apply mfind_merase, beq_iff. Qed.
Lemma nerase_ordered k m : nordered m -> nordered (nerase k m).
Proof. apply filter_ordered. Qed.
Lemma nfind_in k n m : nordered m -> nfind k m = Some n <-> In (k, n) m.
Proof. intros O. split; [apply mfind_in, beq_iff|apply (in_mfind beq blt); auto using beq_iff, blt_irrefl]. Qed.
Lemma nfind_upd k f k' m : nfind k' (nupd k f m) = if beq k' k then Some (f (nat_ k m)) else nfind k' m.
Proof. apply nfind_set. Qed.
Lemma nupd_ordered k f m : nordered m -> nordered (nupd k f m).
Proof. apply nset_ordered. Qed.
Lemma nat_some k n m : nfind k m = Some n -> nat_ k m = n. Proof. unfold nat_. now intros ->. Qed.
Lemma pfind_set k v k' m : pfind k' (pset k v m) = if k' =? k then Some v else pfind k' m.
Proof. apply mfind_mset, Z.eqb_eq. Qed.
Lemma pset_ordered k v m : pordered m -> pordered (pset k v m).
Proof. apply mset_ordered; intros; lia. Qed.
Lemma pfind_in k v m : pordered m -> pfind k m = Some v <-> In (k, v) m.
Proof. intros O. split; [apply mfind_in; intros; lia|apply in_mfind with (ltb := Z.ltb); auto; intros; lia]. Qed.
