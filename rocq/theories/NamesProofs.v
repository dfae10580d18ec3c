(** Names and values determine each other. *)
From Coq Require Import NArith List Bool String.
From Verif Require Import Base BaseLemmas ClusterProofs NamesModel NamesSpec.
Import ListNotations.
Local Open Scope list_scope.

Ltac cast_iff w :=
  split;
  [ repeat match goal with |- context [beq w ?v] => destruct (beq_spec w v) as [->|]; [intros [= <-]; reflexivity|] end; discriminate
  | intros ->; match goal with x : _ |- _ => destruct x; reflexivity end ].
Lemma soption_cast_iff w x : soption_cast w = Some x <-> w = soption_name x.
Proof. unfold soption_cast. cast_iff w. Qed.
Lemma sresult_cast_iff w x : sresult_cast w = Some x <-> w = sresult_name x.
Proof. unfold sresult_cast. cast_iff w. Qed.
Lemma stype_cast_iff w x : stype_cast w = Some x <-> w = stype_name x.
Proof. unfold stype_cast. cast_iff w. Qed.
Lemma compress_cast_iff w x : compress_cast w = Some x <-> w = compress_name x.
Proof. unfold compress_cast. cast_iff w. Qed.
Lemma hashing_cast_iff w x : hashing_cast w = Some x <-> w = hashing_name x.
Proof. unfold hashing_cast. cast_iff w. Qed.
Lemma oresult_cast_iff w x : oresult_cast w = Some x <-> w = oresult_name x.
Proof. unfold oresult_cast. cast_iff w. Qed.
Lemma rmode_cast_iff w x : rmode_cast w = Some x <-> w = rmode_name x.
Proof. unfold rmode_cast. cast_iff w. Qed.
Lemma resolver_cast_iff w x : resolver_cast w = Some x <-> w = resolver_name x.
Proof. unfold resolver_cast. cast_iff w. Qed.
Lemma ncommand_one a b x : ncommand_words x = Some (a, None) -> ncommand_of a b = x.
Proof. destruct x; try discriminate; intros [= <-]; reflexivity. Qed.
Lemma ncommand_two a b x : ncommand_words x = Some (a, Some b) -> ncommand_of a b = x.
Proof. destruct x; try discriminate; intros [= <- <-]; reflexivity. Qed.
Lemma ncommand_only a b : ncommand_of a b = nc_error \/ ncommand_words (ncommand_of a b) = Some (a, None) \/ ncommand_words (ncommand_of a b) = Some (a, Some b).
Proof.
  unfold ncommand_of.
  repeat match goal with
  | |- context [if beq a ?v then _ else _] => destruct (beq_spec a v) as [->|]; [try (right; left; reflexivity)|]
  end; try (left; reflexivity);
  repeat match goal with
  | |- context [if beq b ?v then _ else _] => destruct (beq_spec b v) as [->|]; [right; right; reflexivity|]
  end; left; reflexivity.
Qed.
Lemma icommand_one a b x : icommand_words x = Some (a, None) -> icommand_of a b = x.
Proof. destruct x; try discriminate; intros [= <-]; reflexivity. Qed.
Lemma icommand_two a b x : icommand_words x = Some (a, Some b) -> icommand_of a b = x.
Proof. destruct x; try discriminate; intros [= <- <-]; reflexivity. Qed.
Lemma icommand_only a b : icommand_of a b = ic_error \/ icommand_words (icommand_of a b) = Some (a, None) \/ icommand_words (icommand_of a b) = Some (a, Some b).
Proof.
  unfold icommand_of.
  repeat match goal with
  | |- context [if beq a ?v then _ else _] => destruct (beq_spec a v) as [->|]; [try (right; left; reflexivity)|]
  end; try (left; reflexivity);
  repeat match goal with
  | |- context [if beq b ?v then _ else _] => destruct (beq_spec b v) as [->|]; [right; right; reflexivity|]
  end; left; reflexivity.
Qed.
