(** C55: the price at the ends of a ranged pool's range; C68: what a nearly emptied pool does to the listing. *)
From Verif Require Import Base Dec OrderModel MatchModel MatchSpec PoolModel KeeperModel KeeperSpec MatchProofs RangeProofs RangeEnds KeeperExample QueryModel Props_Query.

(** C55, at the ends of the range: a ranged pool that holds only base coin quotes its minimum price, up to one part
    in a million and three units of the last digit.  A pool that holds only quote coin quotes its maximum price, up to
    one part in a hundred thousand and two units, if that price is at most 10^12 times its reserve.  (Missing: pools
    with both coins, where the claim is refuted by [C55_ranged_price_refuted].) *)
Theorem C55_one_sided_partial : forall minp maxp initp rx ry ps p pp,
  validate_ranged_pool_params minp maxp initp = Ok true ->
  new_ranged_pool rx ry ps minp maxp = Ok p -> pool_price p = Ok pp ->
  (rx = 0 -> 0 < ry -> Z.abs (pp - minp) * 10 ^ 6 <= minp + 3 * 10 ^ 6) /\
  (ry = 0 -> 0 < rx -> maxp <= 10 ^ 12 * (rx * P18) -> Z.abs (pp - maxp) * 10 ^ 5 <= maxp + 2 * 10 ^ 5).
Proof.
  intros minp maxp initp rx ry ps p pp V H Hpp. apply validate_good_range in V. destruct (ranged_ends rx ry ps minp maxp p pp (proj1 V) H Hpp) as [A B]. split.
  - intros E F. specialize (A E F). rewrite Z.mul_comm. exact A.
  - intros E F G. rewrite Z.mul_comm. apply (B E F). assert (X : 1000000 * 10 ^ 12 = P18) by reflexivity. revert G X. generalize P18 as P, (10 ^ 12) as T. intros P T G X. replace (rx * P * P) with (1000000 * (T * (rx * P))); [lia|]. rewrite <- X at 2. ring.
Qed.
Print Assumptions C55_one_sided_partial.
(** Both ends, and the edge of the condition: one quote coin in a pool that reaches up to the highest price has no price. *)
Example C55_one_sided_example :
  (exists p pp, new_ranged_pool 0 1000000 1 500000000000000000 2000000000000000000 = Ok p /\ pool_price p = Ok pp /\ Z.abs (pp - 500000000000000000) <= 3) /\
  (exists p pp, new_ranged_pool 1000000 0 1 500000000000000000 2000000000000000000 = Ok p /\ pool_price p = Ok pp /\ Z.abs (pp - 2000000000000000000) <= 10) /\
  (exists p, new_ranged_pool 1 0 1 1000 (10 ^ 38) = Ok p /\ pool_price p = Panic).
Proof.
  split; [eexists; eexists; split; [vm_compute; reflexivity|split; [vm_compute; reflexivity|vm_compute; discriminate]]|]. split; [eexists; eexists; split; [vm_compute; reflexivity|split; [vm_compute; reflexivity|vm_compute; discriminate]]|].
  eexists. split; [vm_compute; reflexivity|vm_compute; reflexivity].
Qed.

(** C68, full claim refuted without a gift: the creator of a one-sided ranged pool withdraws all but one pool coin.
    One quote coin is left, the translation of the base reserve rounds to zero and the price has no value; from then
    on the pool cannot be queried and every listing that contains it fails.  The chain itself goes on. *)
Definition leftover : list action :=
  [ABegin 5; AMsg (MCreatePair 1 (Coin 1) (Coin 2)); AMsg (MCreateRangedPool 2 1 [(Coin 2, 1000000)] (P18 * 4 / 10) (10 ^ 38) (10 ^ 38)); AEnd; ABegin 10;
   AMsg (MWithdraw 2 1 (PoolCoin 1) 999999999999); AEnd; ABegin 15].
Theorem C68_leftover_refuted : exists s i, reach (sane any_params) (InBlock, s) /\ is_some (get_pool s i) = true /\ is_some (end_block idl s) = true /\ q_pool s i = None /\
  forall limit count, 0 <= limit -> q_pools s 0 None (mkPage None 0 limit count) = None.
Proof.
  assert (F : let c := after 1 leftover in fst c = InBlock /\ is_some (get_pool (snd c) 1) = true /\ is_some (end_block idl (snd c)) = true /\ is_some (q_pool (snd c) 1) = false /\
    (match st_pools (snd c) with e :: _ => negb (is_some (pool_response (snd c) (snd e))) | [] => false end) = true) by (vm_compute; repeat split).
  destruct F as (F1 & F2 & F3 & F4 & F5). exists (snd (after 1 leftover)), 1.
  split; [apply after_in_block; [reflexivity|exact F1]|]. split; [exact F2|]. split; [exact F3|]. split; [|apply first_blocks; exact F5].
  destruct (q_pool (snd (after 1 leftover)) 1); [discriminate F4|reflexivity].
Qed.
Print Assumptions C68_leftover_refuted.
