(** Properties C61-C64: creating pairs and pools and queueing requests.  See Props_Keeper.v for
    [reach (sane Q)]; the vocabulary is in MsgSpec. *)
From Verif Require Import Base Dec DecProofs TickModel TickSpec OrderModel MatchModel PoolModel PoolProofs SqrtProofs RangeProofs RangeCreate KeeperModel KeeperLib KeeperSpec KeeperMicro KeeperBank KeeperTrade KeeperHist KeeperBlock KeeperExample MsgSpec KeeperMsgExact.

(** ** C61: a pair is created exactly when the two coins differ, the pair does not exist yet and the
    creator can pay the fee; the only effects are the new empty pair and the fee. *)
Theorem C61_create_pair : forall Q s u base quote, reach (sane Q) (InBlock, s) ->
  (deliver s (MCreatePair u base quote) <> None <-> base <> quote /\ no_such_pair s base quote /\ holds s (User u) (pm_pair_fee (st_params s))) /\
  (forall s', deliver s (MCreatePair u base quote) = Some s' -> pair_created s s' u base quote).
Proof.
  intros Q s u base quote R. pose proof (reach_okp Q _ R) as I. cbn [snd] in I. split; [exact (create_pair_iff _ s u base quote I)|intros s'; exact (create_pair_effect _ s u base quote s' I)].
Qed.
Print Assumptions C61_create_pair.
Example C61_example : reach (sane any_params) (InBlock, snd (after 1 trade1)) /\
  is_some (deliver (snd (after 1 trade1)) (MCreatePair 2 (Coin 2) (Coin 1))) = true /\ is_some (deliver (snd (after 1 trade1)) (MCreatePair 2 (Coin 1) (Coin 2))) = false.
Proof. split; [apply after_in_block; reflexivity|]. vm_compute. split; reflexivity. Qed.

(** ** C62: a basic pool is created exactly on the terms [basic_terms]; the creator pays exactly the
    two coins offered and the fee, and gets the initial pool coins, at least the minimum supply. *)
Theorem C62_create_basic_pool : forall Q s u i cs, reach (sane Q) (InBlock, s) ->
  (deliver s (MCreatePool u i cs) <> None <-> exists pr x y, basic_terms s u i cs pr x y) /\
  (forall s', deliver s (MCreatePool u i cs) = Some s' -> exists pr x y, basic_terms s u i cs pr x y /\
     pool_created s s' u pr PBasic cs (Z.max (initial_pool_coin_supply x y) (pm_min_supply (st_params s)))).
Proof.
  intros Q s u i cs R. pose proof (reach_okp Q _ R) as I. cbn [snd] in I. destruct (create_pool_exact _ s u i cs I) as [A B]. split; [|exact A]. split; [|exact B].
  intros H. destruct (deliver s _) as [s'|]; [|congruence]. destruct (A s' eq_refl) as (pr & x & y & T & _). eauto.
Qed.
Print Assumptions C62_create_basic_pool.
(** In exact numbers: any price x/y between 10^-15 and 10^20 is acceptable, and an accepted price is
    within half a unit of the 18th digit of that range. *)
Theorem C62_price_range : forall x y, 0 < x -> 0 < y ->
  (y <= 10 ^ 15 * x -> x <= 10 ^ 20 * y -> 10 ^ 3 <= dquo (of_int x) (of_int y) <= 10 ^ 38) /\
  (10 ^ 3 <= dquo (of_int x) (of_int y) <= 10 ^ 38 -> 2 * (10 ^ 3 * y) <= 2 * (10 ^ 18 * x) + y /\ 10 ^ 18 * x < (10 ^ 38 + 1) * y).
Proof.
  intros x y Hx Hy. pose proof P18_pos as P. assert (A : 0 <= x * P18) by nia. assert (B : 0 < y * P18) by nia.
  pose proof (dquo_half (of_int x) (of_int y) A B) as U. pose proof (dquo_near (of_int x) (of_int y) A B) as (_ & _ & L). pose proof (dquo_floor (of_int x) (of_int y) A B) as F.
  set (q := dquo (of_int x) (of_int y)) in *. clearbody q. unfold of_int in *.
  assert (U' : 2 * (q * y) <= 2 * (x * P18) + y) by nia. assert (L' : x * P18 < (q + 1) * y) by nia.
  assert (F' : x * P18 * P18 / (y * P18) = x * P18 / y) by (rewrite Z.div_mul_cancel_r by lia; reflexivity).
  change (10 ^ 18) with P18. change (10 ^ 15) with 1000000000000000. change (10 ^ 3) with 1000. split.
  - intros H1 H2. assert (E : P18 = 1000 * 1000000000000000) by reflexivity. split.
    + assert (1000 <= x * P18 / y) by (apply Z.div_le_lower_bound; [lia|]; nia). lia.
    + assert (q * y * 2 < (2 * 10 ^ 38 + 2) * y); [|nia]. assert (x * P18 <= 10 ^ 20 * y * P18) by nia. assert (10 ^ 20 * y * P18 = 10 ^ 38 * y) by (change (10 ^ 38) with (10 ^ 20 * P18); ring). lia.
  - intros H. nia.
Qed.
Print Assumptions C62_price_range.
Definition pair_only : list action := [ABegin 5; AMsg (MCreatePair 1 (Coin 1) (Coin 2))].
Example C62_example : reach (sane any_params) (InBlock, snd (after 1 pair_only)) /\
  is_some (deliver (snd (after 1 pair_only)) (MCreatePool 1 1 [(Coin 1, 100000000); (Coin 2, 50000000)])) = true /\
  is_some (deliver (snd (after 1 pair_only)) (MCreatePool 1 1 [(Coin 1, 100000000); (Coin 2, 999999)])) = false /\
  is_some (deliver (snd (after 1 pools1)) (MCreatePool 1 1 [(Coin 1, 100000000); (Coin 2, 50000000)])) = false.
Proof. split; [apply after_in_block; reflexivity|]. vm_compute. split; [reflexivity|split; reflexivity]. Qed.

(** ** C63: a ranged pool is created exactly on the terms [ranged_terms]; the creator pays exactly what
    the pool takes (at most the offered amounts, and all of one of them: C29) and the fee. *)
Theorem C63_create_ranged_pool : forall Q s u i cs minp maxp initp, reach (sane Q) (InBlock, s) ->
  (deliver s (MCreateRangedPool u i cs minp maxp initp) <> None <-> exists pr x y ax ay, ranged_terms s u i cs minp maxp initp pr x y ax ay) /\
  (forall s', deliver s (MCreateRangedPool u i cs minp maxp initp) = Some s' -> exists pr x y ax ay taken, ranged_terms s u i cs minp maxp initp pr x y ax ay /\
     ax <= x /\ ay <= y /\ (ax = x \/ ay = y) /\ minp <= initp <= maxp /\ minp < maxp /\ (initp = minp -> ax = 0) /\ (initp = maxp -> ay = 0) /\
     (forall d, amount_of taken d = of_denom d (pr_quote pr) ax + of_denom d (pr_base pr) ay) /\
     pool_created s s' u pr (PRanged minp maxp) taken (Z.max (initial_pool_coin_supply ax ay) (pm_min_supply (st_params s)))).
Proof.
  intros Q s u i cs minp maxp initp R. pose proof (reach_okp Q _ R) as I. cbn [snd] in I. destruct (create_rpool_exact _ s u i cs minp maxp initp I) as [A B]. split.
  - split; [|exact B]. intros H. destruct (deliver s _) as [s'|]; [|congruence]. destruct (A s' eq_refl) as (pr & x & y & ax & ay & taken & T & _). eauto 10.
  - intros s' H. destruct (A s' H) as (pr & x & y & ax & ay & taken & T & Am & C). exists pr, x, y, ax, ay, taken.
    destruct T as (G & Bc & T'). pose proof T' as (_ & _ & _ & _ & _ & _ & _ & (ap & Ec & Eax & Eay) & _).
    destruct (pair_id_of s i pr (v_str _ _ I) G) as (_ & N & _). destruct (pair_coins_facts pr cs x y N Bc) as (X0 & Y0 & _).
    pose proof (create_ranged_accepts x y minp maxp initp ap X0 Y0 Ec) as (L1 & L2). pose proof (create_ranged_facts x y minp maxp initp ap Ec) as (_ & (Gr & _) & Gi & O & _).
    pose proof (create_ranged_ends x y minp maxp initp ap Ec) as (Z1 & Z2). rewrite Eax in *. rewrite Eay in *.
    split; [exact (conj G (conj Bc T'))|]. split; [exact L1|]. split; [exact L2|]. split; [exact O|]. split; [exact Gi|]. split; [lia|]. split; [exact Z1|]. split; [exact Z2|]. split; [exact Am|exact C].
Qed.
Print Assumptions C63_create_ranged_pool.
Example C63_example : reach (sane any_params) (InBlock, snd (after 1 pools1)) /\
  is_some (deliver (snd (after 1 pools1)) (MCreateRangedPool 2 1 [(Coin 1, 100000000); (Coin 2, 50000000)] (P18 * 4 / 10) (P18 * 6 / 10) half)) = true /\
  is_some (deliver (snd (after 1 pools1)) (MCreateRangedPool 2 1 [(Coin 1, 100000000)] (P18 * 4 / 10) (P18 * 6 / 10) (P18 * 4 / 10))) = true /\
  is_some (deliver (snd (after 1 pools1)) (MCreateRangedPool 2 1 [(Coin 2, 100000000)] (P18 * 4 / 10) (P18 * 6 / 10) (P18 * 4 / 10))) = false.
Proof. split; [apply after_in_block; reflexivity|]. vm_compute. split; [reflexivity|split; reflexivity]. Qed.

(** ** C64: deposit and withdraw requests are accepted exactly on their terms, and lock exactly the
    offered coins in the global escrow until the batch. *)
Theorem C64_deposit_request : forall Q s u i cs, reach (sane Q) (InBlock, s) ->
  (deliver s (MDeposit u i cs) <> None <-> exists p pr x y, deposit_terms s u i cs p pr x y) /\
  (forall s', deliver s (MDeposit u i cs) = Some s' -> exists p pr x y, deposit_terms s u i cs p pr x y /\ deposit_queued s s' u i cs p).
Proof.
  intros Q s u i cs R. pose proof (reach_okp Q _ R) as I. cbn [snd] in I. destruct (deposit_exact _ s u i cs I) as [A B]. split; [|exact A]. split; [|exact B].
  intros H. destruct (deliver s _) as [s'|]; [|congruence]. destruct (A s' eq_refl) as (p & pr & x & y & T & _). eauto 10.
Qed.
Print Assumptions C64_deposit_request.
Theorem C64_withdraw_request : forall Q s u i d x, reach (sane Q) (InBlock, s) ->
  (deliver s (MWithdraw u i d x) <> None <-> exists p, get_pool s i = Some p /\ pl_disabled p = false /\ d = PoolCoin i /\ 0 < x <= bal (st_bank s) (User u) (PoolCoin i)) /\
  (forall s', deliver s (MWithdraw u i d x) = Some s' -> exists p, get_pool s i = Some p /\ withdrawal_queued s s' u i x p).
Proof.
  intros Q s u i d x R. pose proof (reach_okp Q _ R) as I. cbn [snd] in I. destruct (withdraw_exact _ s u i d x I) as [A B]. split; [split; [|exact B]|].
  - intros H. destruct (deliver s _) as [s'|]; [|congruence]. destruct (A s' eq_refl) as (p & T1 & T2 & T3 & T4 & _). eauto 10.
  - intros s' H. destruct (A s' H) as (p & T1 & _ & _ & _ & T5). eauto.
Qed.
Print Assumptions C64_withdraw_request.
Example C64_example : reach (sane any_params) (InBlock, snd (after 1 pools1)) /\
  is_some (deliver (snd (after 1 pools1)) (MDeposit 2 1 [(Coin 1, 100000000); (Coin 2, 60000000)])) = true /\
  is_some (deliver (snd (after 1 pools1)) (MDeposit 2 1 [(Coin 1, 100000000)])) = false /\
  is_some (deliver (snd (after 1 pools1)) (MWithdraw 1 1 (PoolCoin 1) 400000000000)) = true /\
  is_some (deliver (snd (after 1 pools1)) (MWithdraw 2 1 (PoolCoin 1) 400000000000)) = false.
Proof. split; [apply after_in_block; reflexivity|]. vm_compute. split; [reflexivity|split; [reflexivity|split; reflexivity]]. Qed.
