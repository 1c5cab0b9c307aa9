(** Specification vocabulary for the messages that create pairs and pools and queue requests. *)
From Verif Require Import Base Dec TickModel TickSpec OrderModel MatchModel PoolModel KeeperModel KeeperSpec.

(** [from] pays [cs] to [to]: the change of [a]'s balance in [d]. *)
Definition paid (from to : addr) (cs : coins) (a : addr) (d : denom) : Z := at_acc a to (amount_of cs d) - at_acc a from (amount_of cs d).
(** [a] holds the coins [cs]. *)
Definition holds (s : state) (a : addr) (cs : coins) : Prop := forall d, amount_of cs d <= bal (st_bank s) a d.
(** [a] holds [cs] and [cs'] together. *)
Definition holds_both (s : state) (a : addr) (cs cs' : coins) : Prop := forall d, amount_of cs d + amount_of cs' d <= bal (st_bank s) a d.

(** ** Pairs *)
Definition no_such_pair (s : state) (base quote : denom) : Prop := forall i p, get_pair s i = Some p -> ~ (pr_base p = base /\ pr_quote p = quote).
(** The only effects: a new pair with the next number and no orders, trades or last price; the
    creator pays the pair creation fee. *)
Definition pair_created (s s' : state) (u : Z) (base quote : denom) : Prop :=
  let id := st_last_pair s + 1 in
  get_pair s id = None /\
  (forall i, get_pair s' i = if i =? id then Some (mkPair id base quote 0 None 1) else get_pair s i) /\
  (forall a d, bal (st_bank s') a d = bal (st_bank s) a d + paid (User u) (pm_fee_collector (st_params s)) (pm_pair_fee (st_params s)) a d) /\
  (forall d, supply (st_bank s') d = supply (st_bank s) d) /\
  st_last_pair s' = id /\ st_last_pool s' = st_last_pool s /\ st_pools s' = st_pools s /\ st_orders s' = st_orders s /\ st_deps s' = st_deps s /\ st_wds s' = st_wds s /\
  st_params s' = st_params s /\ st_height s' = st_height s /\ st_time s' = st_time s /\ forall a i, st_mm s' a i = st_mm s a i.

(** ** Pools *)
(** The only effects: a new active pool of the pair with the next number; the creator pays [taken]
    to its reserve and the pool creation fee, and gets [minted] new pool coins. *)
Definition pool_created (s s' : state) (u : Z) (pr : pair) (kind : pool_kind) (taken : coins) (minted : Z) : Prop :=
  let id := st_last_pool s + 1 in
  get_pool s id = None /\
  (forall i, get_pool s' i = if i =? id then Some (mkPool id (pr_id pr) kind (User u) 0 0 false) else get_pool s i) /\
  (forall a d, bal (st_bank s') a d = bal (st_bank s) a d + paid (User u) (PoolReserve id) taken a d
     + paid (User u) (pm_fee_collector (st_params s)) (pm_pool_fee (st_params s)) a d + at_acc a (User u) (of_denom d (PoolCoin id) minted)) /\
  (forall d, supply (st_bank s') d = supply (st_bank s) d + of_denom d (PoolCoin id) minted) /\
  st_last_pool s' = id /\ st_last_pair s' = st_last_pair s /\ st_pairs s' = st_pairs s /\ st_orders s' = st_orders s /\ st_deps s' = st_deps s /\ st_wds s' = st_wds s /\
  st_params s' = st_params s /\ st_height s' = st_height s /\ st_time s' = st_time s /\ forall a i, st_mm s' a i = st_mm s a i.

(** The coins are [x] of the pair's quote coin and [y] of its base coin, in either order. *)
Definition both_coins (pr : pair) (cs : coins) (x y : Z) : Prop := cs = [(pr_quote pr, x); (pr_base pr, y)] \/ cs = [(pr_base pr, y); (pr_quote pr, x)].
(** The coins are [x] of the pair's quote coin and [y] of its base coin, where a zero amount is left out. *)
Definition pair_coins (pr : pair) (cs : coins) (x y : Z) : Prop :=
  0 < x /\ 0 < y /\ both_coins pr cs x y \/ 0 < x /\ y = 0 /\ cs = [(pr_quote pr, x)] \/ x = 0 /\ 0 < y /\ cs = [(pr_base pr, y)].

(** When a basic pool can be created with [x] quote and [y] base coins: no active basic pool yet, fewer
    pools than the limit, amounts between the minimum deposit and 10^40, price [x / y] (at 18
    digits) between 10^-15 and 10^20. *)
Definition basic_terms (s : state) (u i : Z) (cs : coins) (pr : pair) (x y : Z) : Prop :=
  get_pair s i = Some pr /\ both_coins pr cs x y /\
  0 < x /\ pm_min_deposit (st_params s) <= x <= 10 ^ 40 /\ 0 < y /\ pm_min_deposit (st_params s) <= y <= 10 ^ 40 /\
  10 ^ 3 <= dquo (of_int x) (of_int y) <= 10 ^ 38 /\
  (forall j p, get_pool s j = Some p -> pl_pair p = i -> pl_kind p = PBasic -> pl_disabled p = true) /\
  active_pools s i < pm_max_pools (st_params s) /\
  holds_both s (User u) cs (pm_pool_fee (st_params s)).

(** When a ranged pool can be created: the three prices are ticks and a valid range, [x] and [y] are offered,
    and what the pool takes of them, [ax] and [ay], includes at least one minimum deposit. *)
Definition ranged_terms (s : state) (u i : Z) (cs : coins) (minp maxp initp : dec) (pr : pair) (x y ax ay : Z) : Prop :=
  get_pair s i = Some pr /\ pair_coins pr cs x y /\ x <= 10 ^ 40 /\ y <= 10 ^ 40 /\
  pm_tick_prec (st_params s) <= 18 /\ lowest_tick (pm_tick_prec (st_params s)) <= minp /\
  is_tick (pm_tick_prec (st_params s)) minp /\ is_tick (pm_tick_prec (st_params s)) maxp /\ is_tick (pm_tick_prec (st_params s)) initp /\
  (exists ap, create_ranged_pool x y minp maxp initp = Ok (Some ap) /\ p_rx ap = ax /\ p_ry ap = ay) /\ 0 <= ax /\ 0 <= ay /\
  (pm_min_deposit (st_params s) <= ax \/ pm_min_deposit (st_params s) <= ay) /\
  active_pools s i < pm_max_pools (st_params s) /\
  forall d, of_denom d (pr_quote pr) ax + of_denom d (pr_base pr) ay + amount_of (pm_pool_fee (st_params s)) d <= bal (st_bank s) (User u) d.

(** ** Requests *)
(** When a deposit is accepted for execution at the end of the block. *)
Definition deposit_terms (s : state) (u i : Z) (cs : coins) (p : kpool) (pr : pair) (x y : Z) : Prop :=
  get_pool s i = Some p /\ pl_disabled p = false /\ get_pair s (pl_pair p) = Some pr /\ pair_coins pr cs x y /\
  (pl_kind p = PBasic -> 0 < x /\ 0 < y) /\
  bal (st_bank s) (PoolReserve i) (pr_quote pr) + x <= 10 ^ 40 /\ bal (st_bank s) (PoolReserve i) (pr_base pr) + y <= 10 ^ 40 /\
  holds s (User u) cs.
(** The only effects: the coins move to the global escrow and the request is stored with the next number of the pool. *)
Definition deposit_queued (s s' : state) (u i : Z) (cs : coins) (p : kpool) : Prop :=
  let id := pl_last_dep p + 1 in
  mget (st_deps s) (i, id) = None /\
  (forall j k, mget (st_deps s') (j, k) = if (j =? i) && (k =? id) then Some (mkDreq id i (st_height s) (User u) cs [] 0 RNotExecuted) else mget (st_deps s) (j, k)) /\
  (forall j, get_pool s' j = if j =? i then Some (mkPool i (pl_pair p) (pl_kind p) (pl_creator p) id (pl_last_wd p) (pl_disabled p)) else get_pool s j) /\
  (forall a d, bal (st_bank s') a d = bal (st_bank s) a d + paid (User u) GlobalEscrow cs a d) /\
  (forall d, supply (st_bank s') d = supply (st_bank s) d) /\
  st_last_pool s' = st_last_pool s /\ st_last_pair s' = st_last_pair s /\ st_pairs s' = st_pairs s /\ st_orders s' = st_orders s /\ st_wds s' = st_wds s /\
  st_params s' = st_params s /\ st_height s' = st_height s /\ st_time s' = st_time s /\ forall a i, st_mm s' a i = st_mm s a i.
Definition withdrawal_queued (s s' : state) (u i x : Z) (p : kpool) : Prop :=
  let id := pl_last_wd p + 1 in
  mget (st_wds s) (i, id) = None /\
  (forall j k, mget (st_wds s') (j, k) = if (j =? i) && (k =? id) then Some (mkWreq id i (st_height s) (User u) (PoolCoin i) x [] RNotExecuted) else mget (st_wds s) (j, k)) /\
  (forall j, get_pool s' j = if j =? i then Some (mkPool i (pl_pair p) (pl_kind p) (pl_creator p) (pl_last_dep p) id (pl_disabled p)) else get_pool s j) /\
  (forall a d, bal (st_bank s') a d = bal (st_bank s) a d + paid (User u) GlobalEscrow [(PoolCoin i, x)] a d) /\
  (forall d, supply (st_bank s') d = supply (st_bank s) d) /\
  st_last_pool s' = st_last_pool s /\ st_last_pair s' = st_last_pair s /\ st_pairs s' = st_pairs s /\ st_orders s' = st_orders s /\ st_deps s' = st_deps s /\
  st_params s' = st_params s /\ st_height s' = st_height s /\ st_time s' = st_time s /\ forall a i, st_mm s' a i = st_mm s a i.
