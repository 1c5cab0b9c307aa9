(** * C86: the authority, and nobody else, can change the parameters *)
From Coq Require Import String.
From Verif Require Import Base Dec OrderModel KeeperModel KeeperSpec KeeperExample AuthorityModel.

(** C86.  Every check [ok] of addresses that rejects the empty string (as AccAddressFromBech32 does),
    every authority the module can be set up with, every state and sender: nobody but the authority
    can change the parameters.  Missing: that the authority can; refuted below. *)
Theorem C86_nobody_else_partial : forall ok authority k s sender p s', ok EmptyString = false -> new_keeper ok authority = Some k ->
  ok sender = true -> sender <> authority -> update_params k s sender p = Some s' -> False.
Proof.
  intros ok authority k s sender p s' N K V _ U. unfold new_keeper in K. destruct (ok authority); [|discriminate K]. injection K as <-. unfold update_params, get_authority in U. cbn [k_authority] in U.
  destruct (String.eqb_spec EmptyString sender) as [<-|_]; [congruence|discriminate U].
Qed.
Print Assumptions C86_nobody_else_partial.

(** The authority cannot either: whatever it is, its message is refused in every state, even if the
    parameters it sends are valid. *)
Theorem C86_authority_refuted : forall ok authority k s p, ok EmptyString = false -> new_keeper ok authority = Some k -> update_params k s authority p = None.
Proof.
  intros ok authority k s p N K. unfold new_keeper in K. destruct (ok authority) eqn:V; [|discriminate K]. injection K as <-. unfold update_params, get_authority. cbn [k_authority].
  destruct (String.eqb_spec EmptyString authority) as [<-|_]; [congruence|reflexivity].
Qed.
Print Assumptions C86_authority_refuted.

(** The module can be set up, and the refused parameters are valid: doubling the batch size. *)
Open Scope string_scope.
Definition some_address (a : string) : bool := negb (String.eqb a "").
Example C86_example : some_address "" = false /\ new_keeper some_address "defund10d07y265gmmuvt4z0w9aw880jnsr700jnjf0pl" = Some (mkKeeper "") /\
  valid_params (ex_params 2) = true /\ update_params (mkKeeper "") (ex_start 1) "defund10d07y265gmmuvt4z0w9aw880jnsr700jnjf0pl" (ex_params 2) = None /\
  is_some (update_params (mkKeeper "defund10d07y265gmmuvt4z0w9aw880jnsr700jnjf0pl") (ex_start 1) "defund10d07y265gmmuvt4z0w9aw880jnsr700jnjf0pl" (ex_params 2)) = true.
Proof. vm_compute. repeat split. Qed.
