(** Two states agree on one pair and all that belongs to it. *)
From Verif Require Import Base Dec OrderModel MatchModel PoolModel KeeperModel.

(** Pool [n] belongs to pair [i] in state [s]. *)
Definition pool_in (s : state) (i n : Z) : bool := match get_pool s n with Some p => pl_pair p =? i | None => false end.
(** The pair, its orders, its pools with their coin supplies, deposit and withdrawal requests, the balances of
    its escrow and of its pools' reserves and the counts of market making orders; parameters,
    block time and height. *)
Record same_market (i : Z) (s1 s2 : state) : Prop := mkSM {
  sm_pair : get_pair s1 i = get_pair s2 i;
  sm_orders : forall j, get_order s1 i j = get_order s2 i j;
  sm_mm : forall a, st_mm s1 a i = st_mm s2 a i;
  sm_member : forall n, pool_in s1 i n = pool_in s2 i n;
  sm_pools : forall n, pool_in s1 i n = true -> get_pool s1 n = get_pool s2 n;
  sm_deps : forall n j, pool_in s1 i n = true -> mget (st_deps s1) (n, j) = mget (st_deps s2) (n, j);
  sm_wds : forall n j, pool_in s1 i n = true -> mget (st_wds s1) (n, j) = mget (st_wds s2) (n, j);
  sm_escrow : forall d, bal (st_bank s1) (PairEscrow i) d = bal (st_bank s2) (PairEscrow i) d;
  sm_reserves : forall n d, pool_in s1 i n = true -> bal (st_bank s1) (PoolReserve n) d = bal (st_bank s2) (PoolReserve n) d;
  sm_supplies : forall n, pool_in s1 i n = true -> supply (st_bank s1) (PoolCoin n) = supply (st_bank s2) (PoolCoin n);
  sm_params : st_params s1 = st_params s2;
  sm_time : st_time s1 = st_time s2;
  sm_height : st_height s1 = st_height s2
}.
(** Fees and dust go to accounts that are no escrow and no reserve of the module. *)
Definition plain_account (a : addr) : Prop := (forall i, a <> PairEscrow i) /\ (forall n, a <> PoolReserve n).
Definition plain_collectors (p : params) : Prop := plain_account (pm_dust_collector p) /\ plain_account (pm_fee_collector p).
(** A message that has nothing to do with pair [i]: it names another pair, a pool that is not one of [i]'s, cancels
    only in other pairs, creates a further pair, or sends coins to an account that is not [i]'s. *)
Definition elsewhere (i : Z) (s : state) (m : msg) : bool :=
  match m with
  | MCreatePair _ _ _ => is_some (get_pair s i)
  | MCreatePool _ j _ | MCreateRangedPool _ j _ _ _ _ | MLimitOrder _ j _ _ _ _ _ _ _ | MMarketOrder _ j _ _ _ _ _ _ | MMMOrder _ j _ _ _ _ _ _ _ | MCancelOrder _ j _ => negb (j =? i)
  | MDeposit _ n _ | MWithdraw _ n _ _ => negb (pool_in s i n)
  | MCancelAllOrders _ ids => negb (Nat.eqb (length ids) 0) && negb (existsb (Z.eqb i) ids)
  | MUpdateParams _ => false
  | MSend _ to _ => match to with PairEscrow j => negb (j =? i) | PoolReserve n => negb (pool_in s i n) | _ => true end
  end.
(** Messages for other pairs, accepted one after the other. *)
Fixpoint elsewhere_run (i : Z) (s : state) (ms : list msg) : option state :=
  match ms with
  | [] => Some s
  | m :: t => if elsewhere i s m then match deliver s m with Some s' => elsewhere_run i s' t | None => None end else None
  end.
