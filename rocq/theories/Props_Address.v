(** * C87: the module's accounts are different accounts *)
From Coq Require Import List ZArith Lia Bool String.
From Verif Require Import Base KeysModel KeysProofs AddressModel.
Import ListNotations.
Local Open Scope Z_scope.

(** Ids are 64 bit numbers. *)
Definition id_ok (a : account) : Prop := match a with PairAccount i | PoolAccount i => 0 <= i < 2 ^ 64 | _ => True end.

Lemma digits_inj i j : 0 <= i < 2 ^ 64 -> 0 <= j < 2 ^ 64 -> digits 20 i [] = digits 20 j [] -> i = j.
Proof.
  intros A B E. assert (P64 : 2 ^ 64 <= 10 ^ Z.of_nat 20) by (vm_compute; discriminate).
  destruct (digits_spec 20 i ltac:(lia) ltac:(lia)) as (X & _). destruct (digits_spec 20 j ltac:(lia) ltac:(lia)) as (Y & _). congruence.
Qed.
Lemma numbered_inj p i j : 0 <= i < 2 ^ 64 -> 0 <= j < 2 ^ 64 -> numbered p i = numbered p j -> i = j.
Proof. intros A B E. unfold numbered in E. apply app_inv_head in E. apply app_inv_head in E. exact (digits_inj i j A B E). Qed.

(** C87.  Different accounts are derived from different names ... *)
Theorem C87_names : forall a b, id_ok a -> id_ok b -> name_of a = name_of b -> a = b.
Proof.
  intros a b A B E. destruct a as [i|i| | |], b as [j|j| | |]; try discriminate E; try reflexivity; cbn [name_of id_ok] in *; f_equal; eapply numbered_inj; eassumption.
Qed.
Print Assumptions C87_names.
(** ... so whatever the hash function, two accounts have one address only if the hash function has a
    collision; and no such account is the module account, whose address is shorter. *)
Theorem C87_addresses : forall sha a b, id_ok a -> id_ok b -> address sha a = address sha b -> a = b \/ exists x y, x <> y /\ sha x = sha y.
Proof.
  intros sha a b A B E. destruct (list_eq_dec Z.eq_dec (preimage sha (name_of a)) (preimage sha (name_of b))) as [P|N].
  - left. unfold preimage in P. apply app_inv_head in P. apply app_inv_head in P. exact (C87_names a b A B P).
  - right. exists (preimage sha (name_of a)), (preimage sha (name_of b)). split; [exact N|exact E].
Qed.
Print Assumptions C87_addresses.
Theorem C87_module_account : forall sha a, (forall x, List.length (sha x) = 32%nat) -> address sha a <> module_address sha.
Proof.
  intros sha a L E. assert (X : List.length (address sha a) = List.length (module_address sha)) by (rewrite E; reflexivity). unfold address, module_address in X. rewrite firstn_length, L, L in X. discriminate X.
Qed.
Print Assumptions C87_module_account.

(** The names of the first accounts, and two that share a prefix. *)
Example C87_example : name_of (PoolAccount 12) = bytes_of "PoolReserveAddress|12" /\ name_of (PairAccount 1) = bytes_of "PairEscrowAddress|1" /\ id_ok (PoolAccount 1) /\ id_ok (PoolAccount 12) /\
  name_of (PoolAccount 1) <> name_of (PoolAccount 12).
Proof. vm_compute. repeat split; discriminate. Qed.
