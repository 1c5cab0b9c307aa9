(** Model of the bank operations used by the module, of /repo/x/dex/types/util.go (bulk sends),
    /repo/x/dex/types/msgs.go (ValidateBasic), /repo/x/dex/types/params.go (validation),
    /repo/x/dex/keeper/{pair,pool,swap,batch,store}.go and /repo/x/dex/module/abci.go.
    A keeper function is a function to [option state]: [None] is a returned error or a panic.  For
    a message both leave the state unchanged (the transaction is rolled back); in the end blocker
    both stop the chain.  Not modelled: events, gas, address and denom syntax, locked (vesting)
    balances (spendable = balance), the 256 bit bound of balances. *)
From Verif Require Import Base Dec TickModel OrderModel MatchModel PoolModel.

Notation "'do' x <- e ; k" := (match e with Some x => k | None => None end)
  (at level 200, x pattern, e at level 100, k at level 200).

(** ** Names.  Coin denominations: [PoolCoin id] is types/pool.go:32-34 (string "pool<id>"), all
    other denominations are [Coin].  Addresses: user accounts (the only ones that can sign), the
    module account, the derived addresses of types/pair.go:84-89, types/pool.go:23-29,
    types/params.go:47-50 (hash derived, assumed pairwise distinct and not user accounts), and
    other derived accounts such as the default fee and dust collectors. *)
Inductive denom := Coin (n : Z) | PoolCoin (pool_id : Z).
Inductive addr := User (n : Z) | PairEscrow (pair_id : Z) | PoolReserve (pool_id : Z) | GlobalEscrow | DexModule | Derived (n : Z).

(** Comparison of denominations and of addresses (string and byte equality in the code). *)
Definition denom_eqb (a b : denom) : bool :=
  match a, b with Coin x, Coin y => x =? y | PoolCoin x, PoolCoin y => x =? y | _, _ => false end.
Definition addr_eqb (a b : addr) : bool :=
  match a, b with
  | User x, User y => x =? y
  | PairEscrow x, PairEscrow y => x =? y
  | PoolReserve x, PoolReserve y => x =? y
  | GlobalEscrow, GlobalEscrow => true
  | DexModule, DexModule => true
  | Derived x, Derived y => x =? y
  | _, _ => false
  end.

(** ** sdk.Coins (cosmos-sdk types/coin.go): a list of (denom, amount); the order is irrelevant. *)
Definition coins := list (denom * Z).

(** Coins.AmountOf. *)
Fixpoint amount_of (cs : coins) (d : denom) : Z :=
  match cs with [] => 0 | (d', x) :: t => if denom_eqb d d' then x else amount_of t d end.
Definition has_denom (cs : coins) (d : denom) : bool := existsb (fun c => denom_eqb d (fst c)) cs.
(** Coins.Validate / IsValid: positive amounts, no duplicate denomination. *)
Fixpoint valid_coins (cs : coins) : bool :=
  match cs with [] => true | (d, x) :: t => (0 <? x) && negb (has_denom t d) && valid_coins t end.
(** sdk.NewCoins(sdk.NewCoin..): negative amounts panic, zero amounts are dropped; the callers
    never pass the same denomination twice (base and quote differ), which would panic. *)
Definition new_coins (cs : coins) : option coins :=
  if existsb (fun c => snd c <? 0) cs then None
  else
    let cs' := filter (fun c => negb (snd c =? 0)) cs in
    if valid_coins cs' then Some cs' else None.
(** Coins.Add for one coin and for a list. *)
Fixpoint coins_add1 (cs : coins) (d : denom) (x : Z) : coins :=
  match cs with
  | [] => [(d, x)]
  | (d', y) :: t => if denom_eqb d d' then (d', y + x) :: t else (d', y) :: coins_add1 t d x
  end.
Definition coins_add (a b : coins) : coins := fold_left (fun acc c => coins_add1 acc (fst c) (snd c)) b a.
(** Coins.Sub: panics when an amount becomes negative; zero amounts are dropped. *)
Definition coins_sub (a b : coins) : option coins :=
  if existsb (fun c => amount_of a (fst c) <? snd c) b then None
  else Some (filter (fun c => negb (snd c =? 0)) (map (fun c => (fst c, snd c - amount_of b (fst c))) a)).

(** ** The bank (cosmos-sdk x/bank). *)
Record bank := mkBank { bal : addr -> denom -> Z; supply : denom -> Z }.
Definition set_bal (b : bank) (a : addr) (d : denom) (x : Z) : bank :=
  mkBank (fun a' d' => if addr_eqb a' a && denom_eqb d' d then x else bal b a' d') (supply b).
Definition set_supply (b : bank) (d : denom) (x : Z) : bank :=
  mkBank (bal b) (fun d' => if denom_eqb d' d then x else supply b d').
(** subUnlockedCoins, addCoins. *)
Fixpoint sub_coins (b : bank) (a : addr) (cs : coins) : option bank :=
  match cs with
  | [] => Some b
  | (d, x) :: t => if bal b a d <? x then None else sub_coins (set_bal b a d (bal b a d - x)) a t
  end.
Definition add_coins (b : bank) (a : addr) (cs : coins) : bank :=
  fold_left (fun b c => set_bal b a (fst c) (bal b a (fst c) + snd c)) cs b.
(** SendCoins; also InputOutputCoins with one output and SendCoinsFromModuleToAccount. *)
Definition send (b : bank) (from to : addr) (cs : coins) : option bank :=
  if valid_coins cs then do b1 <- sub_coins b from cs; Some (add_coins b1 to cs) else None.
(** MintCoins / BurnCoins of the dex module account. *)
Definition mint (b : bank) (cs : coins) : bank :=
  fold_left (fun b c => set_supply b (fst c) (supply b (fst c) + snd c)) cs (add_coins b DexModule cs).
Definition burn (b : bank) (cs : coins) : option bank :=
  do b1 <- sub_coins b DexModule cs;
  Some (fold_left (fun b c => set_supply b (fst c) (supply b (fst c) - snd c)) cs b1).

(** ** BulkSendCoinsOperation, types/util.go:13-62: one merged transfer per (from, to), in the order
    of first use. *)
Definition bulk := list (addr * addr * coins).
Fixpoint bulk_merge (q : bulk) (from to : addr) (cs : coins) : bulk :=
  match q with
  | [] => [(from, to, cs)]
  | (f, t, c) :: r =>
      if addr_eqb f from && addr_eqb t to then (f, t, coins_add c cs) :: r
      else (f, t, c) :: bulk_merge r from to cs
  end.
(** QueueSendCoins, types/util.go:36-47. *)
Definition bulk_queue (q : bulk) (from to : addr) (cs : coins) : bulk :=
  if valid_coins cs && negb (match cs with [] => true | _ => false end) then bulk_merge q from to cs else q.
(** Run, types/util.go:50-62. *)
Fixpoint bulk_run (b : bank) (q : bulk) : option bank :=
  match q with
  | [] => Some b
  | (f, t, cs) :: r => do b1 <- send b f t cs; bulk_run b1 r
  end.

(** ** Store: maps with big endian integer keys, iterated in key order (keys.go; see KeysModel). *)
Definition key := (Z * Z)%type.
Definition key_eqb (a b : key) : bool := (fst a =? fst b) && (snd a =? snd b).
Definition key_ltb (a b : key) : bool := (fst a <? fst b) || ((fst a =? fst b) && (snd a <? snd b)).
Definition amap (V : Type) := list (key * V).
Fixpoint mget {V} (m : amap V) (k : key) : option V :=
  match m with [] => None | (k', v) :: t => if key_eqb k k' then Some v else mget t k end.
Fixpoint mset {V} (m : amap V) (k : key) (v : V) : amap V :=
  match m with
  | [] => [(k, v)]
  | (k', v') :: t =>
      if key_eqb k k' then (k, v) :: t
      else if key_ltb k k' then (k, v) :: m
      else (k', v') :: mset t k v
  end.
Definition mdel {V} (m : amap V) (k : key) : amap V := filter (fun kv => negb (key_eqb k (fst kv))) m.
(** Iteration over the keys with first component [i]. *)
Definition mprefix {V} (m : amap V) (i : Z) : amap V := filter (fun kv => fst (fst kv) =? i) m.

(** ** Objects.  Pair (dex.pb.go, types/pair.go:33-43); the escrow address is [PairEscrow id]. *)
Record pair := mkPair {
  pr_id : Z; pr_base : denom; pr_quote : denom; pr_last_order : Z; pr_last_price : option dec; pr_batch : Z }.

(** Pool (types/pool.go:50-78); pool coin denom and reserve address are functions of the id. *)
Inductive pool_kind := PBasic | PRanged (minp maxp : dec).
Record kpool := mkPool {
  pl_id : Z; pl_pair : Z; pl_kind : pool_kind; pl_creator : addr;
  pl_last_dep : Z; pl_last_wd : Z; pl_disabled : bool }.

(** RequestStatus, OrderStatus, OrderType (dex.pb.go; valid ones, types/request.go:288-295, 311-319). *)
Inductive rstatus := RNotExecuted | RSucceeded | RFailed.
Inductive ostatus := ONotExecuted | ONotMatched | OPartiallyMatched | OCompleted | OCanceled | OExpired.
Inductive otype := TLimit | TMarket | TMM.

(** DepositRequest, types/request.go:13-24; WithdrawRequest, types/request.go:81-90. *)
Record dreq := mkDreq {
  dr_id : Z; dr_pool : Z; dr_height : Z; dr_owner : addr; dr_coins : coins; dr_accepted : coins; dr_minted : Z; dr_status : rstatus }.
Record wreq := mkWreq {
  wr_id : Z; wr_pool : Z; wr_height : Z; wr_owner : addr; wr_denom : denom; wr_amt : Z; wr_withdrawn : coins; wr_status : rstatus }.

(** Order, types/request.go:181-211. *)
Record korder := mkKOrder {
  ko_type : otype; ko_id : Z; ko_pair : Z; ko_height : Z; ko_owner : addr; ko_dir : dir;
  ko_offer_denom : denom; ko_offer : Z; ko_remaining : Z;
  ko_demand_denom : denom; ko_received : Z;
  ko_price : dec; ko_amt : Z; ko_open : Z; ko_batch : Z; ko_expire : Z; ko_status : ostatus }.

(** ShouldBeDeleted / IsMatchable, types/request.go:299-306, 323-330, 361-363. *)
Definition o_terminal (s : ostatus) : bool :=
  match s with OCompleted | OCanceled | OExpired => true | _ => false end.
Definition o_matchable (s : ostatus) : bool :=
  match s with ONotExecuted | ONotMatched | OPartiallyMatched => true | _ => false end.
Definition r_should_be_deleted (s : rstatus) : bool := match s with RNotExecuted => false | _ => true end.

Definition ko_with_status (o : korder) (st : ostatus) : korder :=
  mkKOrder (ko_type o) (ko_id o) (ko_pair o) (ko_height o) (ko_owner o) (ko_dir o) (ko_offer_denom o) (ko_offer o)
    (ko_remaining o) (ko_demand_denom o) (ko_received o) (ko_price o) (ko_amt o) (ko_open o) (ko_batch o) (ko_expire o) st.
Definition ko_with_fill (o : korder) (remaining received open : Z) : korder :=
  mkKOrder (ko_type o) (ko_id o) (ko_pair o) (ko_height o) (ko_owner o) (ko_dir o) (ko_offer_denom o) (ko_offer o)
    remaining (ko_demand_denom o) received (ko_price o) (ko_amt o) open (ko_batch o) (ko_expire o) (ko_status o).
(** Order.ExpiredAt, types/request.go:276-278. *)
Definition expired_at (o : korder) (t : Z) : bool := ko_expire o <=? t.

(** Params, types/params.go:52-125 without the extra gas amounts, the swap fee rate and the number
    of market making order ticks, which the module's logic does not read. *)
Record params := mkParams {
  pm_batch_size : Z; pm_tick_prec : Z; pm_fee_collector : addr; pm_dust_collector : addr;
  pm_min_supply : Z; pm_pair_fee : coins; pm_pool_fee : coins; pm_min_deposit : Z; pm_price_ratio : dec;
  pm_max_mm : Z; pm_max_lifespan : Z; pm_withdraw_fee : dec; pm_max_pools : Z }.
(** Params.Validate and the validators run by SetParamSet, types/params.go:128-356; non negativity
    of the unsigned fields comes from their type. *)
Definition valid_params (p : params) : bool :=
  (0 <? pm_batch_size p) && (0 <=? pm_tick_prec p) && (0 <? pm_min_supply p) && valid_coins (pm_pair_fee p) &&
  valid_coins (pm_pool_fee p) && (0 <=? pm_min_deposit p) && (0 <=? pm_price_ratio p) && (0 <? pm_max_mm p) &&
  (0 <=? pm_max_lifespan p) && (0 <=? pm_withdraw_fee p) && (0 <=? pm_max_pools p).

(** The chain state seen by the module.  [st_pidx] is the pair index (store.go:51-75), [st_plidx]
    the pools-by-pair index (store.go:198-201, 229-245), [st_oidx] the orders-by-orderer index
    (store.go:475-478, 520-536), [st_mm] the market making order counters (0 = absent, store.go:578-595).
    The request-by-user, pair lookup and pool-by-reserve indexes serve queries only and are not
    modelled here. *)
Record state := mkState {
  st_params : params; st_bank : bank; st_last_pair : Z; st_last_pool : Z;
  st_pairs : amap pair; st_pools : amap kpool; st_deps : amap dreq; st_wds : amap wreq; st_orders : amap korder;
  st_pidx : denom -> denom -> option Z; st_plidx : amap unit; st_oidx : addr -> amap unit;
  st_mm : addr -> Z -> Z; st_height : Z; st_time : Z }.

Definition set_params s p := mkState p (st_bank s) (st_last_pair s) (st_last_pool s) (st_pairs s) (st_pools s) (st_deps s) (st_wds s) (st_orders s) (st_pidx s) (st_plidx s) (st_oidx s) (st_mm s) (st_height s) (st_time s).
Definition set_bank s b := mkState (st_params s) b (st_last_pair s) (st_last_pool s) (st_pairs s) (st_pools s) (st_deps s) (st_wds s) (st_orders s) (st_pidx s) (st_plidx s) (st_oidx s) (st_mm s) (st_height s) (st_time s).
Definition set_last_pair s i := mkState (st_params s) (st_bank s) i (st_last_pool s) (st_pairs s) (st_pools s) (st_deps s) (st_wds s) (st_orders s) (st_pidx s) (st_plidx s) (st_oidx s) (st_mm s) (st_height s) (st_time s).
Definition set_last_pool s i := mkState (st_params s) (st_bank s) (st_last_pair s) i (st_pairs s) (st_pools s) (st_deps s) (st_wds s) (st_orders s) (st_pidx s) (st_plidx s) (st_oidx s) (st_mm s) (st_height s) (st_time s).
Definition set_pairs s m := mkState (st_params s) (st_bank s) (st_last_pair s) (st_last_pool s) m (st_pools s) (st_deps s) (st_wds s) (st_orders s) (st_pidx s) (st_plidx s) (st_oidx s) (st_mm s) (st_height s) (st_time s).
Definition set_pools s m := mkState (st_params s) (st_bank s) (st_last_pair s) (st_last_pool s) (st_pairs s) m (st_deps s) (st_wds s) (st_orders s) (st_pidx s) (st_plidx s) (st_oidx s) (st_mm s) (st_height s) (st_time s).
Definition set_deps s m := mkState (st_params s) (st_bank s) (st_last_pair s) (st_last_pool s) (st_pairs s) (st_pools s) m (st_wds s) (st_orders s) (st_pidx s) (st_plidx s) (st_oidx s) (st_mm s) (st_height s) (st_time s).
Definition set_wds s m := mkState (st_params s) (st_bank s) (st_last_pair s) (st_last_pool s) (st_pairs s) (st_pools s) (st_deps s) m (st_orders s) (st_pidx s) (st_plidx s) (st_oidx s) (st_mm s) (st_height s) (st_time s).
Definition set_orders s m := mkState (st_params s) (st_bank s) (st_last_pair s) (st_last_pool s) (st_pairs s) (st_pools s) (st_deps s) (st_wds s) m (st_pidx s) (st_plidx s) (st_oidx s) (st_mm s) (st_height s) (st_time s).
Definition set_pidx s m := mkState (st_params s) (st_bank s) (st_last_pair s) (st_last_pool s) (st_pairs s) (st_pools s) (st_deps s) (st_wds s) (st_orders s) m (st_plidx s) (st_oidx s) (st_mm s) (st_height s) (st_time s).
Definition set_plidx s m := mkState (st_params s) (st_bank s) (st_last_pair s) (st_last_pool s) (st_pairs s) (st_pools s) (st_deps s) (st_wds s) (st_orders s) (st_pidx s) m (st_oidx s) (st_mm s) (st_height s) (st_time s).
Definition set_oidx s m := mkState (st_params s) (st_bank s) (st_last_pair s) (st_last_pool s) (st_pairs s) (st_pools s) (st_deps s) (st_wds s) (st_orders s) (st_pidx s) (st_plidx s) m (st_mm s) (st_height s) (st_time s).
Definition set_mm s m := mkState (st_params s) (st_bank s) (st_last_pair s) (st_last_pool s) (st_pairs s) (st_pools s) (st_deps s) (st_wds s) (st_orders s) (st_pidx s) (st_plidx s) (st_oidx s) m (st_height s) (st_time s).
Definition set_clock s h t := mkState (st_params s) (st_bank s) (st_last_pair s) (st_last_pool s) (st_pairs s) (st_pools s) (st_deps s) (st_wds s) (st_orders s) (st_pidx s) (st_plidx s) (st_oidx s) (st_mm s) h t.

(** store.go: GetPair (40-48), SetPair (64-68), GetPool (155-163), SetPool (179-183), GetOrder (458-466),
    SetOrder (469-473), SetDepositRequest (283-287), SetWithdrawRequest (376-380), SetNumMMOrders and
    DeleteNumMMOrders (587-595), SetOrderIndex (475-478), DeleteOrderIndex (573-576). *)
Definition get_pair s i := mget (st_pairs s) (i, 0).
Definition put_pair s p := set_pairs s (mset (st_pairs s) (pr_id p, 0) p).
Definition get_pool s i := mget (st_pools s) (i, 0).
Definition put_pool s p := set_pools s (mset (st_pools s) (pl_id p, 0) p).
Definition get_order s i j := mget (st_orders s) (i, j).
Definition put_order s o := set_orders s (mset (st_orders s) (ko_pair o, ko_id o) o).
Definition put_dep s r := set_deps s (mset (st_deps s) (dr_pool r, dr_id r) r).
Definition put_wd s r := set_wds s (mset (st_wds s) (wr_pool r, wr_id r) r).
Definition set_mm_count s (a : addr) (i n : Z) :=
  set_mm s (fun a' i' => if addr_eqb a' a && (i' =? i) then n else st_mm s a' i').
Definition oidx_add s (o : korder) :=
  set_oidx s (fun a => if addr_eqb a (ko_owner o) then mset (st_oidx s a) (ko_pair o, ko_id o) tt else st_oidx s a).
Definition oidx_del s (o : korder) :=
  set_oidx s (fun a => if addr_eqb a (ko_owner o) then mdel (st_oidx s a) (ko_pair o, ko_id o) else st_oidx s a).
Definition st_send s from to cs := do b <- send (st_bank s) from to cs; Some (set_bank s b).

(** Iteration with an error-returning callback (store.go:96-111 and the other Iterate functions).
    The iterator works on the entries present when it was opened: the callbacks only overwrite the
    entry they are visiting. *)
Fixpoint for_each {A} (f : A -> state -> option state) (l : list A) (s : state) : option state :=
  match l with [] => Some s | x :: t => do s1 <- f x s; for_each f t s1 end.

(** Plumbing of the model: a result that may be missing, and a panic read as no result. *)
Definition is_some {A} (o : option A) : bool := match o with Some _ => true | None => false end.
Definition of_res {A} (r : res A) : option A := match r with Ok a => Some a | _ => None end.

(** ** keeper/pair.go: getNextPairIdWithUpdate 13-17, ValidateMsgCreatePair 28-33, CreatePair 36-68. *)
Definition create_pair (s : state) (u : Z) (base quote : denom) : option state :=
  let exists_pair := match st_pidx s base quote with Some i => is_some (get_pair s i) | None => false end in
  if exists_pair then None
  else
    do s1 <- st_send s (User u) (pm_fee_collector (st_params s)) (pm_pair_fee (st_params s));
    let id := st_last_pair s1 + 1 in
    let p := mkPair id base quote 0 None 1 in
    let s2 := put_pair (set_last_pair s1 id) p in
    Some (set_pidx s2 (fun a b => if denom_eqb a base && denom_eqb b quote then Some id else st_pidx s2 a b)).

(** ** pool.go *)

(** Pool.AMMPool, types/pool.go:118-127. *)
Definition amm_pool (p : kpool) (rx ry ps : Z) : res pool :=
  match pl_kind p with PBasic => Ok (Basic rx ry ps) | PRanged a b => new_ranged_pool rx ry ps a b end.
(** getPoolBalances and GetPoolCoinSupply, pool.go:53-64: quote reserve, base reserve, supply. *)
Definition pool_rx s (p : kpool) (pr : pair) : Z := bal (st_bank s) (PoolReserve (pl_id p)) (pr_quote pr).
Definition pool_ry s (p : kpool) (pr : pair) : Z := bal (st_bank s) (PoolReserve (pl_id p)) (pr_base pr).
Definition pool_ps s (p : kpool) : Z := supply (st_bank s) (PoolCoin (pl_id p)).
(** MarkPoolAsDisabled, pool.go:67-70. *)
Definition mark_disabled s (p : kpool) :=
  put_pool s (mkPool (pl_id p) (pl_pair p) (pl_kind p) (pl_creator p) (pl_last_dep p) (pl_last_wd p) true).

(** IteratePoolsByPair, store.go:229-245: pools found through the index. *)
Definition pools_of_pair s (i : Z) : list (option kpool) :=
  map (fun kv => get_pool s (snd (fst kv))) (mprefix (st_plidx s) i).
Definition active (p : option kpool) : bool := match p with Some p => negb (pl_disabled p) | None => true end.
Definition active_basic (p : option kpool) : bool :=
  match p with Some p => negb (pl_disabled p) && match pl_kind p with PBasic => true | _ => false end | None => false end.
Definition num_active s (i : Z) : Z := Z.of_nat (length (filter active (pools_of_pair s i))).
Definition in_pair (p : pair) (d : denom) : bool := denom_eqb d (pr_base p) || denom_eqb d (pr_quote p).

(** The common end of CreatePool and CreateRangedPool, pool.go:129-157 and 237-268: store the pool
    and its index, send deposit and fee, mint the pool coin. *)
Definition create_pool_tail (s : state) (u : Z) (pr : pair) (kind : pool_kind) (ps : Z) (deposit_coins : coins) : option state :=
  let id := st_last_pool s + 1 in
  let p := mkPool id (pr_id pr) kind (User u) 0 0 false in
  let s1 := put_pool (set_last_pool s id) p in
  let s2 := set_plidx s1 (mset (st_plidx s1) (pr_id pr, id) tt) in
  do s3 <- st_send s2 (User u) (PoolReserve id) deposit_coins;
  do s4 <- st_send s3 (User u) (pm_fee_collector (st_params s)) (pm_pool_fee (st_params s));
  let minted := Z.max ps (pm_min_supply (st_params s)) in
  do pc <- new_coins [(PoolCoin id, minted)];
  st_send (set_bank s4 (mint (st_bank s4) pc)) DexModule (User u) pc.

(** ValidateMsgCreatePool and CreatePool, pool.go:73-172. *)
Definition create_pool (s : state) (u i : Z) (cs : coins) : option state :=
  do pr <- get_pair s i;
  if existsb (fun c => negb (in_pair pr (fst c)) || (snd c <? pm_min_deposit (st_params s))) cs then None
  else if existsb active_basic (pools_of_pair s (pr_id pr)) then None
  else if pm_max_pools (st_params s) <=? num_active s (pr_id pr) then None
  else
    do r <- of_res (create_basic_pool (amount_of cs (pr_quote pr)) (amount_of cs (pr_base pr)));
    do ap <- r;
    create_pool_tail s u pr PBasic (p_ps ap) cs.

(** LowestTick with its panic for a precision above 18 (LegacyNewDecWithPrec), amm/tick.go:155-157. *)
Definition lowest_tick_chk (prec : Z) : option dec := if 18 <? prec then None else Some (lowest_tick prec).

(** ValidateMsgCreateRangedPool and CreateRangedPool, pool.go:175-283. *)
Definition create_rpool (s : state) (u i : Z) (cs : coins) (minp maxp initp : dec) : option state :=
  let prec := pm_tick_prec (st_params s) in
  do a <- of_res (price_to_down_tick_chk minp prec);
  do b <- of_res (price_to_down_tick_chk maxp prec);
  do c <- of_res (price_to_down_tick_chk initp prec);
  if negb ((a =? minp) && (b =? maxp) && (c =? initp)) then None
  else
    do lt <- lowest_tick_chk prec;
    if minp <? lt then None
    else
      do pr <- get_pair s i;
      if existsb (fun c => negb (in_pair pr (fst c))) cs then None
      else if pm_max_pools (st_params s) <=? num_active s (pr_id pr) then None
      else
        do r <- of_res (create_ranged_pool (amount_of cs (pr_quote pr)) (amount_of cs (pr_base pr)) minp maxp initp);
        do ap <- r;
        let ax := p_rx ap in
        let ay := p_ry ap in
        if (ax <? pm_min_deposit (st_params s)) && (ay <? pm_min_deposit (st_params s)) then None
        else
          do dc <- new_coins [(pr_quote pr, ax); (pr_base pr, ay)];
          create_pool_tail s u pr (PRanged minp maxp) (p_ps ap) dc.

(** ValidateMsgDeposit and Deposit, pool.go:286-346. *)
Definition deposit_msg (s : state) (u i : Z) (cs : coins) : option state :=
  do p <- get_pool s i;
  if pl_disabled p then None
  else if match pl_kind p with PBasic => negb (Nat.eqb (length cs) 2) | _ => false end then None
  else
    do pr <- get_pair s (pl_pair p);
    if existsb (fun c => negb (in_pair pr (fst c))) cs then None
    else if max_coin_amount <? pool_rx s p pr + amount_of cs (pr_quote pr) then None
    else if max_coin_amount <? pool_ry s p pr + amount_of cs (pr_base pr) then None
    else
      do s1 <- st_send s (User u) GlobalEscrow cs;
      let id := pl_last_dep p + 1 in
      let s2 := put_pool s1 (mkPool (pl_id p) (pl_pair p) (pl_kind p) (pl_creator p) id (pl_last_wd p) (pl_disabled p)) in
      Some (put_dep s2 (mkDreq id (pl_id p) (st_height s) (User u) cs [] 0 RNotExecuted)).

(** ValidateMsgWithdraw and Withdraw, pool.go:349-394. *)
Definition withdraw_msg (s : state) (u i : Z) (d : denom) (x : Z) : option state :=
  do p <- get_pool s i;
  if pl_disabled p then None
  else if negb (denom_eqb d (PoolCoin (pl_id p))) then None
  else
    do s1 <- st_send s (User u) GlobalEscrow [(d, x)];
    let id := pl_last_wd p + 1 in
    let s2 := put_pool s1 (mkPool (pl_id p) (pl_pair p) (pl_kind p) (pl_creator p) (pl_last_dep p) id (pl_disabled p)) in
    Some (put_wd s2 (mkWreq id (pl_id p) (st_height s) (User u) d x [] RNotExecuted)).

(** FinishDepositRequest, pool.go:451-480. *)
Definition finish_dep (s : state) (r : dreq) (st : rstatus) : option state :=
  match dr_status r with
  | RNotExecuted =>
      do refund <- coins_sub (dr_coins r) (dr_accepted r);
      do s1 <- (match refund with [] => Some s | _ => st_send s GlobalEscrow (dr_owner r) refund end);
      Some (put_dep s1 (mkDreq (dr_id r) (dr_pool r) (dr_height r) (dr_owner r) (dr_coins r) (dr_accepted r) (dr_minted r) st))
  | _ => Some s
  end.

(** ExecuteDepositRequest, pool.go:397-448.  A missing pool has an invalid type and AMMPool panics. *)
Definition execute_dep (s : state) (r : dreq) : option state :=
  do p <- get_pool s (dr_pool r);
  if pl_disabled p then finish_dep s r RFailed
  else
    do pr <- get_pair s (pl_pair p);
    let rx := pool_rx s p pr in
    let ry := pool_ry s p pr in
    let ps := pool_ps s p in
    do ap <- of_res (amm_pool p rx ry ps);
    if is_depleted ap then finish_dep (mark_disabled s p) r RFailed
    else
      do res <- of_res (deposit rx ry ps (amount_of (dr_coins r) (pr_quote pr)) (amount_of (dr_coins r) (pr_base pr)));
      let '(ax, ay, pc) := res in
      if pc =? 0 then finish_dep s r RFailed
      else
        do minting <- new_coins [(PoolCoin (pl_id p), pc)];
        let b1 := mint (st_bank s) minting in
        do accepted <- new_coins [(pr_quote pr, ax); (pr_base pr, ay)];
        let q := bulk_queue (bulk_queue [] GlobalEscrow (PoolReserve (pl_id p)) accepted) DexModule (dr_owner r) minting in
        do b2 <- bulk_run b1 q;
        finish_dep (set_bank s b2) (mkDreq (dr_id r) (dr_pool r) (dr_height r) (dr_owner r) (dr_coins r) accepted pc (dr_status r)) RSucceeded.

(** FinishWithdrawRequest, pool.go:539-568. *)
Definition finish_wd (s : state) (r : wreq) (st : rstatus) : option state :=
  match wr_status r with
  | RNotExecuted =>
      do s1 <- (match st with RFailed => st_send s GlobalEscrow (wr_owner r) [(wr_denom r, wr_amt r)] | _ => Some s end);
      Some (put_wd s1 (mkWreq (wr_id r) (wr_pool r) (wr_height r) (wr_owner r) (wr_denom r) (wr_amt r) (wr_withdrawn r) st))
  | _ => Some s
  end.

(** ExecuteWithdrawRequest, pool.go:483-536. *)
Definition execute_wd (s : state) (r : wreq) : option state :=
  do p <- get_pool s (wr_pool r);
  if pl_disabled p then finish_wd s r RFailed
  else
    do pr <- get_pair s (pl_pair p);
    let rx := pool_rx s p pr in
    let ry := pool_ry s p pr in
    let ps := pool_ps s p in
    do ap <- of_res (amm_pool p rx ry ps);
    if is_depleted ap then finish_wd (mark_disabled s p) r RFailed
    else
      do res <- of_res (withdraw rx ry ps (wr_amt r) (pm_withdraw_fee (st_params s)));
      let '(x, y) := res in
      if (x =? 0) && (y =? 0) then finish_wd s r RFailed
      else
        do withdrawn <- new_coins [(pr_quote pr, x); (pr_base pr, y)];
        do burning <- new_coins [(wr_denom r, wr_amt r)];
        let q := bulk_queue (bulk_queue [] GlobalEscrow DexModule burning) (PoolReserve (pl_id p)) (wr_owner r) withdrawn in
        do b1 <- bulk_run (st_bank s) q;
        do b2 <- burn b1 burning;
        let s1 := set_bank s b2 in
        let s2 := if wr_amt r =? ps then mark_disabled s1 p else s1 in
        finish_wd s2 (mkWreq (wr_id r) (wr_pool r) (wr_height r) (wr_owner r) (wr_denom r) (wr_amt r) withdrawn (wr_status r)) RSucceeded.

(** ** swap.go *)

(** IsTooSmallOrderAmount, types/util.go:94-96; MulInt panics above 315 bits. *)
Definition is_too_small (amt : Z) (price : dec) : res bool :=
  if amt <? min_coin_amount then Ok true
  else let! v := c_mul_int price amt in Ok (v <? of_int min_coin_amount).

(** placeOrder, swap.go:23-161, with PriceLimits 18-20 and the wrappers LimitOrder 164-168, MarketOrder 171-175.  [price] is absent for market orders.  NewOrder (types/request.go:
    140-212) derives the direction from the offer coin, which equals the message's direction after
    the checks. *)
Definition place_order (s : state) (typ : otype) (u i : Z) (d : dir) (offer_denom : denom) (offer : Z)
    (demand : denom) (price : option dec) (amt lifespan : Z) : option state :=
  let prec := pm_tick_prec (st_params s) in
  let ratio := pm_price_ratio (st_params s) in
  if bal (st_bank s) (User u) offer_denom <? offer then None
  else if pm_max_lifespan (st_params s) <? lifespan then None
  else
    do pr <- get_pair s i;
    do _ <- (match typ, price with
             | TMarket, _ => if is_some (pr_last_price pr) then Some tt else None
             | _, None => None
             | _, Some px =>
                 do lim <- (match pr_last_price pr with
                            | Some last => of_res (price_limits last ratio prec)
                            | None => do lo <- lowest_tick_chk prec; Some (lo, highest_tick prec)
                            end);
                 if (snd lim <? px) || (px <? fst lim) then None else Some tt
             end);
    do target <- (match d, typ, pr_last_price pr with
                  | Buy, TMarket, Some last => of_res (c_mul last (one_dec + ratio))
                  | Sell, TMarket, Some last => of_res (c_mul last (one_dec - ratio))
                  | _, _, _ => price
                  end);
    do rprice <- of_res (match d with Buy => price_to_down_tick_chk target prec | Sell => price_to_up_tick_chk target prec end);
    let needed := offer_coin_amount d rprice amt in
    if negb (match d with
             | Buy => denom_eqb offer_denom (pr_quote pr) && denom_eqb demand (pr_base pr)
             | Sell => denom_eqb offer_denom (pr_base pr) && denom_eqb demand (pr_quote pr)
             end) then None
    else if needed <? 0 then None
    else if offer <? needed then None
    else
      do small <- of_res (is_too_small amt rprice);
      if small then None
      else
        do oc <- new_coins [(offer_denom, needed)];
        do s1 <- st_send s (User u) (PairEscrow (pr_id pr)) oc;
        let id := pr_last_order pr + 1 in
        let s2 := put_pair s1 (mkPair (pr_id pr) (pr_base pr) (pr_quote pr) id (pr_last_price pr) (pr_batch pr)) in
        let o := mkKOrder typ id (pr_id pr) (st_height s) (User u) d offer_denom needed needed demand 0
                   rprice amt amt (pr_batch pr) (st_time s + lifespan) ONotExecuted in
        Some (oidx_add (put_order s2 o) o).

(** MMOrder, swap.go:178-194. *)
Definition mm_order (s : state) (u i : Z) (d : dir) (offer_denom : denom) (offer : Z) (demand : denom) (price : dec) (amt lifespan : Z) : option state :=
  let n := st_mm s (User u) i in
  if pm_max_mm (st_params s) <=? n then None
  else
    do s1 <- place_order s TMM u i d offer_denom offer demand (Some price) amt lifespan;
    Some (set_mm_count s1 (User u) i (n + 1)).

(** FinishOrder, swap.go:500-541. *)
Definition finish_order (s : state) (o : korder) (st : ostatus) : option state :=
  if o_terminal (ko_status o) then Some s
  else
    do s1 <- (if 0 <? ko_remaining o then
                do _ <- get_pair s (ko_pair o);
                st_send s (PairEscrow (ko_pair o)) (ko_owner o) [(ko_offer_denom o, ko_remaining o)]
              else Some s);
    let s2 := put_order s1 (ko_with_status o st) in
    Some (match ko_type o with
          | TMM => let n := st_mm s2 (ko_owner o) (ko_pair o) in
                   set_mm_count s2 (ko_owner o) (ko_pair o) (if n <=? 1 then 0 else n - 1)
          | _ => s2
          end).

(** ValidateMsgCancelOrder and CancelOrder, swap.go:197-238.  A missing pair reads as batch id 0. *)
Definition cancel_order (s : state) (u i j : Z) : option state :=
  do o <- get_order s i j;
  if negb (addr_eqb (User u) (ko_owner o)) then None
  else if match ko_status o with OCanceled => true | _ => false end then None
  else
    let batch := match get_pair s i with Some pr => pr_batch pr | None => 0 end in
    if ko_batch o =? batch then None else finish_order s o OCanceled.

(** CancelAllOrders, swap.go:241-286.  The pair cache of the code does not change what is read:
    no pair is written meanwhile. *)
Definition cancel_one (ids : list Z) (k : key) (s : state) : option state :=
  do o <- get_order s (fst k) (snd k);
  if (match ids with [] => true | _ => false end) || existsb (Z.eqb (ko_pair o)) ids then
    let batch := match get_pair s (ko_pair o) with Some pr => pr_batch pr | None => 0 end in
    if negb (match ko_status o with OCanceled => true | _ => false end) && (ko_batch o <? batch)
    then finish_order s o OCanceled else Some s
  else Some s.
Definition cancel_all (s : state) (u : Z) (ids : list Z) : option state :=
  if existsb (fun i => negb (is_some (get_pair s i))) ids then None
  else for_each (cancel_one ids) (map fst (st_oidx s (User u))) s.

(** NewUserOrder, types/order.go:35-61. *)
Definition user_order (o : korder) : res order :=
  let! amt := match ko_dir o with
              | Buy => safe_math (let! q := c_quo_trunc (of_int (ko_remaining o)) (ko_price o) in
                                  let! a := c_trunc q in Ok (Z.min (ko_open o) a)) (ko_open o)
              | Sell => Ok (ko_open o)
              end in
  Ok (new_order (ko_dir o) (ko_price o) amt (ko_remaining o) (ko_batch o) (KUser (ko_id o))).

(** First loop of ExecuteMatching, swap.go:291-317: the orders offered for matching. *)
Fixpoint collect_orders (l : list (key * korder)) (s : state) (h : heap) : option (state * heap) :=
  match l with
  | [] => Some (s, h)
  | (_, o) :: t =>
      if o_terminal (ko_status o) then collect_orders t s h
      else if match ko_status o with ONotExecuted => false | _ => expired_at o (st_time s) end then
        do s1 <- finish_order s o OExpired; collect_orders t s1 h
      else
        do uo <- of_res (user_order o);
        let s1 := match ko_status o with ONotExecuted => put_order s (ko_with_status o ONotMatched) | _ => s end in
        collect_orders t s1 (h ++ [uo])
  end.

(** Second loop, swap.go:319-335: the active pools; depleted ones get disabled. *)
Fixpoint collect_pools (l : list (key * unit)) (pr : pair) (s : state) : option (state * list (Z * pool)) :=
  match l with
  | [] => Some (s, [])
  | (k, _) :: t =>
      do p <- get_pool s (snd k);
      if pl_disabled p then collect_pools t pr s
      else
        do ap <- of_res (amm_pool p (pool_rx s p pr) (pool_ry s p pr) (pool_ps s p));
        if is_depleted ap then collect_pools t pr (mark_disabled s p)
        else do r <- collect_pools t pr s; Some (fst r, (pl_id p, ap) :: snd r)
  end.

(** NewPoolOrder, types/order.go:93-103. *)
Definition pool_order (id : Z) (d : dir) (po : dec * Z) : order :=
  new_order d (fst po) (snd po) (offer_coin_amount d (fst po) (snd po)) 0 (KPool id).

(** Pool orders at the match price, swap.go:364-373. *)
Definition orders_at (price : dec) (ip : Z * pool) : list order :=
  let b := ok_or0 (buy_amount_over (snd ip) price) in
  let c := ok_or0 (sell_amount_under (snd ip) price) in
  (if 0 <? b then [pool_order (fst ip) Buy (price, b)] else []) ++
  (if 0 <? c then [pool_order (fst ip) Sell (price, c)] else []).
(** amm.PoolOrders, amm/pool.go:586-590. *)
Fixpoint orders_around (lo hi : dec) (prec : Z) (ps : list (Z * pool)) : option (list order) :=
  match ps with
  | [] => Some []
  | (i, p) :: t =>
      do bs <- pool_buy_orders p lo hi prec;
      do ss <- pool_sell_orders p lo hi prec;
      do r <- orders_around lo hi prec t;
      Some (map (pool_order i Buy) bs ++ map (pool_order i Sell) ss ++ r)
  end.

(** Keeper.Match, swap.go:352-384.  The book is rebuilt from the list of all orders, which gives
    the book obtained by adding the pool orders to the user orders' book.  Result: the submitted
    orders and, if anything matched, (orders after, match price, quote coin difference). *)
Definition kmatch iter (prm : params) (h : heap) (ps : list (Z * pool)) (last : option dec)
  : option (heap * option (heap * dec * Z)) :=
  let prec := pm_tick_prec prm in
  match last with
  | None =>
      let ov := multi_view (ov_of_view (make_view h (new_order_book h)) :: map (fun ip => ov_of_pool (snd ip)) ps) in
      let crossed := match ov_highest_buy ov, ov_lowest_sell ov with Some hb, Some ls => ls <=? hb | _, _ => false end in
      if crossed && (18 <? prec) then None
      else
        match find_match_price ov prec with
        | None => Some (h, None)
        | Some mp =>
            let h1 := h ++ flat_map (orders_at mp) ps in
            do r <- match_single iter h1 (new_order_book h1) mp;
            Some (h1, match r with Some (h2, qd) => Some (h2, mp, qd) | None => None end)
        end
  | Some last =>
      do lim <- of_res (price_limits last (pm_price_ratio prm) prec);
      do po <- orders_around (fst lim) (snd lim) prec ps;
      let h1 := h ++ po in
      do r <- match_book iter h1 (new_order_book h1) last;
      let '(h2, mp, qd, matched) := r in
      Some (h1, if matched then Some (h2, mp, qd) else None)
  end.

(** Denominations of an order of the pair, types/pool.go:146-155; equal to the stored ones for
    user orders. *)
Definition offer_denom_of (pr : pair) (d : dir) : denom := match d with Buy => pr_quote pr | Sell => pr_base pr end.
Definition demand_denom_of (pr : pair) (d : dir) : denom := match d with Buy => pr_base pr | Sell => pr_quote pr end.

(** First loop of ApplyMatchResult, swap.go:387-401: matched pool orders pay into the escrow. *)
Fixpoint queue_pool_payments (pr : pair) (os : list order) (q : bulk) : option bulk :=
  match os with
  | [] => Some q
  | o :: t =>
      match o_kind o with
      | KPool id =>
          if is_matched o then
            do cs <- new_coins [(offer_denom_of pr (o_dir o), o_paid o)];
            queue_pool_payments pr t (bulk_queue q (PoolReserve id) (PairEscrow (pr_id pr)) cs)
          else queue_pool_payments pr t q
      | _ => queue_pool_payments pr t q
      end
  end.

(** Equality of directions, as used in swap.go:402-479. *)
Definition dir_eqb (a b : dir) : bool := match a, b with Buy, Buy | Sell, Sell => true | _, _ => false end.

(** Main loop of ApplyMatchResult, swap.go:402-479: update user orders, queue what everybody
    receives.  [seen]: the direction in which each pool traded (poolMatchResultById); a pool trading
    in both directions panics. *)
Fixpoint apply_orders (pr : pair) (os : list order) (s : state) (q : bulk) (seen : list (Z * dir)) : option (state * bulk) :=
  match os with
  | [] => Some (s, q)
  | o :: t =>
      if is_matched o then
        match o_kind o with
        | KUser id =>
            do ko <- get_order s (pr_id pr) id;
            if ko_remaining ko <? o_paid o then None
            else
              let ko' := ko_with_fill ko (ko_remaining ko - o_paid o) (ko_received ko + o_recv o) (ko_open ko - (o_amt o - o_open o)) in
              do s1 <- (if ko_open ko' =? 0 then finish_order s ko' OCompleted
                        else Some (put_order s (ko_with_status ko' OPartiallyMatched)));
              do cs <- new_coins [(ko_demand_denom ko, o_recv o)];
              apply_orders pr t s1 (bulk_queue q (PairEscrow (pr_id pr)) (ko_owner ko) cs) seen
        | KPool id =>
            do cs <- new_coins [(demand_denom_of pr (o_dir o), o_recv o)];
            let q1 := bulk_queue q (PairEscrow (pr_id pr)) (PoolReserve id) cs in
            if existsb (fun x => (fst x =? id) && negb (dir_eqb (snd x) (o_dir o))) seen then None
            else apply_orders pr t s q1 ((id, o_dir o) :: seen)
        | KBase => None
        end
      else apply_orders pr t s q seen
  end.

(** ApplyMatchResult, swap.go:386-498. *)
Definition apply_match (s : state) (pr : pair) (os : list order) (qd : Z) : option state :=
  do q1 <- queue_pool_payments pr os [];
  do b1 <- bulk_run (st_bank s) q1;
  do r <- apply_orders pr os (set_bank s b1) [] [];
  do dust <- new_coins [(pr_quote pr, qd)];
  let q2 := bulk_queue (snd r) (PairEscrow (pr_id pr)) (pm_dust_collector (st_params s)) dust in
  do b2 <- bulk_run (st_bank (fst r)) q2;
  Some (set_bank (fst r) b2).

(** ExecuteMatching, swap.go:288-350. *)
Definition execute_matching iter (pr : pair) (s : state) : option state :=
  do r1 <- collect_orders (mprefix (st_orders s) (pr_id pr)) s [];
  do r2 <- collect_pools (mprefix (st_plidx (fst r1)) (pr_id pr)) pr (fst r1);
  do m <- kmatch iter (st_params s) (snd r1) (snd r2) (pr_last_price pr);
  match snd m with
  | None => Some (put_pair (fst r2) (mkPair (pr_id pr) (pr_base pr) (pr_quote pr) (pr_last_order pr) (pr_last_price pr) (pr_batch pr + 1)))
  | Some (h2, mp, qd) =>
      do s3 <- apply_match (fst r2) pr (map (get h2) (book_orders (new_order_book (fst m)))) qd;
      Some (put_pair s3 (mkPair (pr_id pr) (pr_base pr) (pr_quote pr) (pr_last_order pr) (Some mp) (pr_batch pr + 1)))
  end.

(** ** batch.go *)

(** Second loop of ExecuteRequests, batch.go:20-34. *)
Definition expire_order (o : korder) (s : state) : option state :=
  if o_matchable (ko_status o) && expired_at o (st_time s) then finish_order s o OExpired
  else
    do small <- of_res (is_too_small (ko_open o) (ko_price o));
    if small then finish_order s o OExpired else Some s.
Definition execute_dep_if (r : dreq) (s : state) : option state :=
  match dr_status r with RNotExecuted => execute_dep s r | _ => Some s end.
Definition execute_wd_if (r : wreq) (s : state) : option state :=
  match wr_status r with RNotExecuted => execute_wd s r | _ => Some s end.

(** ExecuteRequests, batch.go:11-55. *)
Definition execute_requests iter (s : state) : option state :=
  do s1 <- for_each (fun kv => execute_matching iter (snd kv)) (st_pairs s) s;
  do s2 <- for_each (fun kv => expire_order (snd kv)) (st_orders s1) s1;
  do s3 <- for_each (fun kv => execute_dep_if (snd kv)) (st_deps s2) s2;
  for_each (fun kv => execute_wd_if (snd kv)) (st_wds s3) s3.

(** DeleteOutdatedRequests, batch.go:59-78. *)
Definition delete_outdated (s : state) : state :=
  let s1 := set_deps s (filter (fun kv => negb (r_should_be_deleted (dr_status (snd kv)))) (st_deps s)) in
  let s2 := set_wds s1 (filter (fun kv => negb (r_should_be_deleted (wr_status (snd kv)))) (st_wds s1)) in
  let dead := filter (fun kv => o_terminal (ko_status (snd kv))) (st_orders s2) in
  let s3 := set_orders s2 (filter (fun kv => negb (o_terminal (ko_status (snd kv)))) (st_orders s2)) in
  fold_left (fun s kv => oidx_del s (snd kv)) dead s3.

(** ** module/abci.go.  BeginBlocker, abci.go:14-18, at the next height and a later or equal time. *)
Definition begin_block (s : state) (t : Z) : state := delete_outdated (set_clock s (st_height s + 1) t).
(** EndBlocker, abci.go:20-27. *)
Definition end_block iter (s : state) : option state :=
  if st_height s mod pm_batch_size (st_params s) =? 0 then execute_requests iter s else Some s.

(** ** Messages: the request types of types/tx.pb.go with the fields ValidateBasic and the handlers read
    (types/msgs.go, constructors at 42, 91, 149, 216, 269, 322, 419, 501, 598, 648), and bank's MsgSend. *)
Inductive msg :=
| MCreatePair (u : Z) (base quote : denom)
| MCreatePool (u i : Z) (cs : coins)
| MCreateRangedPool (u i : Z) (cs : coins) (minp maxp initp : dec)
| MDeposit (u i : Z) (cs : coins)
| MWithdraw (u i : Z) (d : denom) (x : Z)
| MLimitOrder (u i : Z) (d : dir) (offer_denom : denom) (offer : Z) (demand : denom) (price : dec) (amt lifespan : Z)
| MMarketOrder (u i : Z) (d : dir) (offer_denom : denom) (offer : Z) (demand : denom) (amt lifespan : Z)
| MMMOrder (u i : Z) (d : dir) (offer_denom : denom) (offer : Z) (demand : denom) (price : dec) (amt lifespan : Z)
| MCancelOrder (u i j : Z)
| MCancelAllOrders (u : Z) (ids : list Z)
| MUpdateParams (p : params)
| MSend (u : Z) (to : addr) (cs : coins).

(** No repeated pair id in MsgCancelAllOrders, types/msgs.go:666-675. *)
Fixpoint distinct (l : list Z) : bool :=
  match l with [] => true | x :: t => negb (existsb (Z.eqb x) t) && distinct t end.
(** The range of an order's amount and offer, types/msgs.go:367-378, 458-469, 546-557. *)
Definition amt_in_range (x : Z) : bool := (min_coin_amount <=? x) && (x <=? max_coin_amount).

(** ValidateBasic of each message, types/msgs.go: CreatePair 54-68, CreatePool 107-126, CreateRangedPool 171-193,
    Deposit 232-246, Withdraw 285-299, LimitOrder 348-396, MarketOrder 443-478, MMOrder 527-575, CancelOrder
    614-625, CancelAllOrders 662-677.  Left out: address and denomination strings are taken to be well formed.
    MSend is bank's MsgSend (valid positive coins); MsgUpdateParams has no ValidateBasic. *)
Definition validate_basic (m : msg) : bool :=
  match m with
  | MCreatePair _ b q => negb (denom_eqb b q)
  | MCreatePool _ i cs => negb (i =? 0) && valid_coins cs && (Nat.eqb (length cs) 2) && forallb (fun c => snd c <=? max_coin_amount) cs
  | MCreateRangedPool _ i cs a b c =>
      negb (i =? 0) && valid_coins cs && (Nat.eqb (length cs) 1 || Nat.eqb (length cs) 2) &&
      forallb (fun c => snd c <=? max_coin_amount) cs &&
      match validate_ranged_pool_params a b c with Ok v => v | _ => false end
  | MDeposit _ i cs => negb (i =? 0) && valid_coins cs && (Nat.eqb (length cs) 1 || Nat.eqb (length cs) 2)
  | MWithdraw _ i _ x => negb (i =? 0) && (0 <? x)
  | MLimitOrder _ i d od o dd p a l | MMMOrder _ i d od o dd p a l =>
      negb (i =? 0) && (0 <? p) && amt_in_range o && amt_in_range a && (offer_coin_amount d p a <=? o) &&
      negb (denom_eqb od dd) && (0 <=? l)
  | MMarketOrder _ i d od o dd a l =>
      negb (i =? 0) && amt_in_range o && amt_in_range a && negb (denom_eqb od dd) && (0 <=? l)
  | MCancelOrder _ i j => negb (i =? 0) && negb (j =? 0)
  | MCancelAllOrders _ ids => forallb (fun i => negb (i =? 0)) ids && distinct ids
  | MUpdateParams _ => true
  | MSend _ _ cs => valid_coins cs
  end.

(** Handlers, keeper/msg_server.go.  MUpdateParams is authority-gated (msg_server.go:133-142);
    SetParamSet panics on invalid parameters.  MSend: bank's MsgSend by a user to any account. *)
Definition handle (s : state) (m : msg) : option state :=
  match m with
  | MCreatePair u b q => create_pair s u b q
  | MCreatePool u i cs => create_pool s u i cs
  | MCreateRangedPool u i cs a b c => create_rpool s u i cs a b c
  | MDeposit u i cs => deposit_msg s u i cs
  | MWithdraw u i d x => withdraw_msg s u i d x
  | MLimitOrder u i d od o dd p a l => place_order s TLimit u i d od o dd (Some p) a l
  | MMarketOrder u i d od o dd a l => place_order s TMarket u i d od o dd None a l
  | MMMOrder u i d od o dd p a l => mm_order s u i d od o dd p a l
  | MCancelOrder u i j => cancel_order s u i j
  | MCancelAllOrders u ids => cancel_all s u ids
  | MUpdateParams p => if valid_params p then Some (set_params s p) else None
  | MSend u to cs => st_send s (User u) to cs
  end.
(** A message in a block: ValidateBasic (run by baseapp), then its handler (keeper/msg_server.go:25-142); an
    error or panic leaves the state as it was. *)
Definition deliver (s : state) (m : msg) : option state := if validate_basic m then handle s m else None.

(** Genesis without dex objects: DefaultGenesis with arbitrary valid parameters, types/genesis.go:8-20. *)
Definition init_state (p : params) (b : bank) (h t : Z) : state :=
  mkState p b 0 0 [] [] [] [] [] (fun _ _ => None) [] (fun _ => []) (fun _ _ => 0) h t.
