(** Property C43: further reachable blocks whose end blocker fails.  See Props_Keeper.v for [reach (sane Q)]. *)
From Verif Require Import Base Dec OrderModel MatchModel MatchSpec PoolModel KeeperModel KeeperSpec MatchProofs KeeperExample KeeperRich.

(** One run of a history for the four facts below. *)
Definition halts (c : config) (P : params) : Prop :=
  fst c = InBlock /\ valid_params (st_params (snd c)) = true /\ st_params (snd c) = P /\ is_some (end_block idl (snd c)) = false.
Lemma halts_none c P : halts c P -> fst c = InBlock /\ valid_params (st_params (snd c)) = true /\ st_params (snd c) = P /\ end_block idl (snd c) = None.
Proof. intros (A & B & D & E). split; [exact A|]. split; [exact B|]. split; [exact D|]. destruct (end_block idl (snd c)); [discriminate E|reflexivity]. Qed.

(** ** C43: the end-of-block batch never fails. *)

(** With the default parameters: one user creates a ranged pool over [4.99e6, 5e6] that holds only
    quote coin, another sends one unit of base coin to the pool's reserve; deriving the pool's
    translation then divides by zero (amm/pool.go:534-584). *)
Theorem C43_gift_refuted : exists s, reach (sane any_params) (InBlock, s) /\ st_params s = ex_params 1 /\ end_block idl s = None.
Proof.
  assert (F : halts (rich_after (ex_params 1) gift) (ex_params 1)) by (vm_compute; repeat split).
  destruct (halts_none _ _ F) as (A & B & D & E). exists (snd (rich_after (ex_params 1) gift)).
  split; [apply rich_in_block; [reflexivity|split; [exact Logic.I|reflexivity]|exact A]|]. split; [exact D|exact E].
Qed.
Print Assumptions C43_gift_refuted.
(** Without the gift the same block ends. *)
Example C43_gift_needed : is_some (end_block idl (snd (rich_after (ex_params 1) gift_pool))) = true.
Proof. vm_compute. reflexivity. Qed.

(** Parameters that pass validation and halt the chain.  A withdraw fee rate above one (params.go
    has no upper bound): a withdrawal computes a negative amount. *)
Theorem C43_fee_refuted : exists s, reach (sane any_params) (InBlock, s) /\ valid_params (st_params s) = true /\ st_params s = params_with 4 (P18 / 10) (2 * P18) /\ end_block idl s = None.
Proof.
  assert (F : halts (rich_after (params_with 4 (P18 / 10) (2 * P18)) pools2) (params_with 4 (P18 / 10) (2 * P18))) by (vm_compute; repeat split).
  destruct (halts_none _ _ F) as (A & B & D & E). exists (snd (rich_after (params_with 4 (P18 / 10) (2 * P18)) pools2)).
  split; [apply rich_in_block; [reflexivity|split; [exact Logic.I|reflexivity]|exact A]|]. split; [exact B|]. split; [exact D|exact E].
Qed.
Print Assumptions C43_fee_refuted.
(** A tick precision above 18 (not validated at all): a pair with one pool, no orders. *)
Theorem C43_precision_refuted : exists s, reach (sane any_params) (InBlock, s) /\ valid_params (st_params s) = true /\ st_params s = params_with 19 (P18 / 10) 0 /\ end_block idl s = None.
Proof.
  assert (F : halts (rich_after (params_with 19 (P18 / 10) 0) pools1) (params_with 19 (P18 / 10) 0)) by (vm_compute; repeat split).
  destruct (halts_none _ _ F) as (A & B & D & E). exists (snd (rich_after (params_with 19 (P18 / 10) 0) pools1)).
  split; [apply rich_in_block; [reflexivity|split; [exact Logic.I|reflexivity]|exact A]|]. split; [exact B|]. split; [exact D|exact E].
Qed.
Print Assumptions C43_precision_refuted.
(** A price limit ratio of one (no upper bound): after the first trade of a pair, the next batch fails. *)
Theorem C43_ratio_refuted : exists s, reach any_params (InBlock, s) /\ valid_params (st_params s) = true /\ st_params s = params_with 4 P18 0 /\ end_block idl s = None.
Proof.
  assert (F : halts (rich_after (params_with 4 P18 0) (trade1 ++ [AEnd; ABegin 15])) (params_with 4 P18 0)) by (vm_compute; repeat split).
  destruct (halts_none _ _ F) as (A & B & D & E). exists (snd (rich_after (params_with 4 P18 0) (trade1 ++ [AEnd; ABegin 15]))).
  split; [apply rich_in_block; [reflexivity|exact Logic.I|exact A]|]. split; [exact B|]. split; [exact D|exact E].
Qed.
Print Assumptions C43_ratio_refuted.
(** The same histories with the default parameters do not fail. *)
Example C43_params_needed : is_some (end_block idl (snd (rich_after (ex_params 1) pools2))) && is_some (end_block idl (snd (rich_after (ex_params 1) pools1)))
  && is_some (end_block idl (snd (rich_after (ex_params 1) (trade1 ++ [AEnd; ABegin 15])))) = true.
Proof. vm_compute. reflexivity. Qed.
