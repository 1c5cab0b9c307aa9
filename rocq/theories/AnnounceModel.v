(** The announcement each accepted message emits: the handlers of KeeperModel once more, now with the event
    at their end.  Attributes that are strings in the code (addresses, numbers, coins, times) are values
    here; the creator and orderer addresses are users. *)
From Verif Require Import Base Dec TickModel OrderModel MatchModel PoolModel KeeperModel.

Inductive ann :=
| APair (creator : Z) (base quote : denom) (pair : Z) (escrow : addr)
| APool (ranged : bool) (creator pair : Z) (deposit : coins) (pool : Z) (reserve : addr) (minted_denom : denom) (minted : Z)
| ADeposit (depositor pool : Z) (deposit : coins) (req : Z)
| AWithdraw (withdrawer pool : Z) (pool_denom : denom) (amt : Z) (req : Z)
| AOrder (typ : otype) (orderer pair : Z) (d : dir) (offer_denom : denom) (offer : Z) (demand : denom) (price : dec) (amt id batch expire : Z) (refund_denom : denom) (refund : Z)
| ACancel (orderer pair id : Z)
| ACancelAll (orderer : Z) (pairs : list Z) (canceled : list Z).

(** CreatePair with its event, pair.go:36-68. *)
Definition create_pair_a (s : state) (u : Z) (base quote : denom) : option (state * list ann) :=
  let exists_pair := match st_pidx s base quote with Some i => is_some (get_pair s i) | None => false end in
  if exists_pair then None
  else
    do s1 <- st_send s (User u) (pm_fee_collector (st_params s)) (pm_pair_fee (st_params s));
    let id := st_last_pair s1 + 1 in
    let p := mkPair id base quote 0 None 1 in
    let s2 := put_pair (set_last_pair s1 id) p in
    Some (set_pidx s2 (fun a b => if denom_eqb a base && denom_eqb b quote then Some id else st_pidx s2 a b),
          [APair u base quote (pr_id p) (PairEscrow (pr_id p))]).

(** The common end of CreatePool and CreateRangedPool with the event, pool.go:127-172, 237-283.  [told] is what the
    event calls the deposit, msg.DepositCoins in both (pool.go:164, 275); [deposit_coins] is what is taken. *)
Definition create_pool_tail_a (s : state) (u i : Z) (pr : pair) (kind : pool_kind) (ps : Z) (deposit_coins told : coins) : option (state * list ann) :=
  let id := st_last_pool s + 1 in
  let p := mkPool id (pr_id pr) kind (User u) 0 0 false in
  let s1 := put_pool (set_last_pool s id) p in
  let s2 := set_plidx s1 (mset (st_plidx s1) (pr_id pr, id) tt) in
  do s3 <- st_send s2 (User u) (PoolReserve id) deposit_coins;
  do s4 <- st_send s3 (User u) (pm_fee_collector (st_params s)) (pm_pool_fee (st_params s));
  let minted := Z.max ps (pm_min_supply (st_params s)) in
  do pc <- new_coins [(PoolCoin id, minted)];
  do s5 <- st_send (set_bank s4 (mint (st_bank s4) pc)) DexModule (User u) pc;
  Some (s5, [APool (match kind with PBasic => false | PRanged _ _ => true end) u i told (pl_id p) (PoolReserve (pl_id p)) (PoolCoin (pl_id p)) minted]).

(** CreatePool, pool.go:115-172. *)
Definition create_pool_a (s : state) (u i : Z) (cs : coins) : option (state * list ann) :=
  do pr <- get_pair s i;
  if existsb (fun c => negb (in_pair pr (fst c)) || (snd c <? pm_min_deposit (st_params s))) cs then None
  else if existsb active_basic (pools_of_pair s (pr_id pr)) then None
  else if pm_max_pools (st_params s) <=? num_active s (pr_id pr) then None
  else
    do r <- of_res (create_basic_pool (amount_of cs (pr_quote pr)) (amount_of cs (pr_base pr)));
    do ap <- r;
    create_pool_tail_a s u i pr PBasic (p_ps ap) cs cs.

(** CreateRangedPool, pool.go:217-283. *)
Definition create_rpool_a (s : state) (u i : Z) (cs : coins) (minp maxp initp : dec) : option (state * list ann) :=
  let prec := pm_tick_prec (st_params s) in
  do a <- of_res (price_to_down_tick_chk minp prec);
  do b <- of_res (price_to_down_tick_chk maxp prec);
  do c <- of_res (price_to_down_tick_chk initp prec);
  if negb ((a =? minp) && (b =? maxp) && (c =? initp)) then None
  else
    do lt <- lowest_tick_chk prec;
    if minp <? lt then None
    else
      do pr <- get_pair s i;
      if existsb (fun c => negb (in_pair pr (fst c))) cs then None
      else if pm_max_pools (st_params s) <=? num_active s (pr_id pr) then None
      else
        do r <- of_res (create_ranged_pool (amount_of cs (pr_quote pr)) (amount_of cs (pr_base pr)) minp maxp initp);
        do ap <- r;
        let ax := p_rx ap in
        let ay := p_ry ap in
        if (ax <? pm_min_deposit (st_params s)) && (ay <? pm_min_deposit (st_params s)) then None
        else
          do dc <- new_coins [(pr_quote pr, ax); (pr_base pr, ay)];
          create_pool_tail_a s u i pr (PRanged minp maxp) (p_ps ap) dc cs.

(** Deposit, pool.go:318-346. *)
Definition deposit_msg_a (s : state) (u i : Z) (cs : coins) : option (state * list ann) :=
  do p <- get_pool s i;
  if pl_disabled p then None
  else if match pl_kind p with PBasic => negb (Nat.eqb (length cs) 2) | _ => false end then None
  else
    do pr <- get_pair s (pl_pair p);
    if existsb (fun c => negb (in_pair pr (fst c))) cs then None
    else if max_coin_amount <? pool_rx s p pr + amount_of cs (pr_quote pr) then None
    else if max_coin_amount <? pool_ry s p pr + amount_of cs (pr_base pr) then None
    else
      do s1 <- st_send s (User u) GlobalEscrow cs;
      let id := pl_last_dep p + 1 in
      let s2 := put_pool s1 (mkPool (pl_id p) (pl_pair p) (pl_kind p) (pl_creator p) id (pl_last_wd p) (pl_disabled p)) in
      let r := mkDreq id (pl_id p) (st_height s) (User u) cs [] 0 RNotExecuted in
      Some (put_dep s2 r, [ADeposit u (pl_id p) cs (dr_id r)]).

(** Withdraw, pool.go:366-394. *)
Definition withdraw_msg_a (s : state) (u i : Z) (d : denom) (x : Z) : option (state * list ann) :=
  do p <- get_pool s i;
  if pl_disabled p then None
  else if negb (denom_eqb d (PoolCoin (pl_id p))) then None
  else
    do s1 <- st_send s (User u) GlobalEscrow [(d, x)];
    let id := pl_last_wd p + 1 in
    let s2 := put_pool s1 (mkPool (pl_id p) (pl_pair p) (pl_kind p) (pl_creator p) (pl_last_dep p) id (pl_disabled p)) in
    let r := mkWreq id (pl_id p) (st_height s) (User u) d x [] RNotExecuted in
    Some (put_wd s2 r, [AWithdraw u (pl_id p) d x (wr_id r)]).

(** placeOrder, swap.go:26-161.  The refund is offerCoin.Sub(resultOfferCoin), line 120. *)
Definition place_order_a (s : state) (typ : otype) (u i : Z) (d : dir) (offer_denom : denom) (offer : Z)
    (demand : denom) (price : option dec) (amt lifespan : Z) : option (state * list ann) :=
  let prec := pm_tick_prec (st_params s) in
  let ratio := pm_price_ratio (st_params s) in
  if bal (st_bank s) (User u) offer_denom <? offer then None
  else if pm_max_lifespan (st_params s) <? lifespan then None
  else
    do pr <- get_pair s i;
    do _ <- (match typ, price with
             | TMarket, _ => if is_some (pr_last_price pr) then Some tt else None
             | _, None => None
             | _, Some px =>
                 do lim <- (match pr_last_price pr with
                            | Some last => of_res (price_limits last ratio prec)
                            | None => do lo <- lowest_tick_chk prec; Some (lo, highest_tick prec)
                            end);
                 if (snd lim <? px) || (px <? fst lim) then None else Some tt
             end);
    do target <- (match d, typ, pr_last_price pr with
                  | Buy, TMarket, Some last => of_res (c_mul last (one_dec + ratio))
                  | Sell, TMarket, Some last => of_res (c_mul last (one_dec - ratio))
                  | _, _, _ => price
                  end);
    do rprice <- of_res (match d with Buy => price_to_down_tick_chk target prec | Sell => price_to_up_tick_chk target prec end);
    let needed := offer_coin_amount d rprice amt in
    if negb (match d with
             | Buy => denom_eqb offer_denom (pr_quote pr) && denom_eqb demand (pr_base pr)
             | Sell => denom_eqb offer_denom (pr_base pr) && denom_eqb demand (pr_quote pr)
             end) then None
    else if needed <? 0 then None
    else if offer <? needed then None
    else
      do small <- of_res (is_too_small amt rprice);
      if small then None
      else
        do oc <- new_coins [(offer_denom, needed)];
        do s1 <- st_send s (User u) (PairEscrow (pr_id pr)) oc;
        let id := pr_last_order pr + 1 in
        let s2 := put_pair s1 (mkPair (pr_id pr) (pr_base pr) (pr_quote pr) id (pr_last_price pr) (pr_batch pr)) in
        let o := mkKOrder typ id (pr_id pr) (st_height s) (User u) d offer_denom needed needed demand 0
                   rprice amt amt (pr_batch pr) (st_time s + lifespan) ONotExecuted in
        Some (oidx_add (put_order s2 o) o,
              [AOrder typ u i d offer_denom needed demand rprice amt (ko_id o) (ko_batch o) (ko_expire o) offer_denom (offer - needed)]).

(** MMOrder, swap.go:178-194. *)
Definition mm_order_a (s : state) (u i : Z) (d : dir) (offer_denom : denom) (offer : Z) (demand : denom) (price : dec) (amt lifespan : Z) : option (state * list ann) :=
  let n := st_mm s (User u) i in
  if pm_max_mm (st_params s) <=? n then None
  else
    do r <- place_order_a s TMM u i d offer_denom offer demand (Some price) amt lifespan;
    Some (set_mm_count (fst r) (User u) i (n + 1), snd r).

(** CancelOrder, swap.go:219-238. *)
Definition cancel_order_a (s : state) (u i j : Z) : option (state * list ann) :=
  do s' <- cancel_order s u i j; Some (s', [ACancel u i j]).

(** CancelAllOrders, swap.go:241-286: the ids of the orders finished, in the order of the iteration. *)
Definition cancel_one_a (ids : list Z) (k : key) (s : state) : option (state * list Z) :=
  do o <- get_order s (fst k) (snd k);
  if (match ids with [] => true | _ => false end) || existsb (Z.eqb (ko_pair o)) ids then
    let batch := match get_pair s (ko_pair o) with Some pr => pr_batch pr | None => 0 end in
    if negb (match ko_status o with OCanceled => true | _ => false end) && (ko_batch o <? batch)
    then do s' <- finish_order s o OCanceled; Some (s', [ko_id o]) else Some (s, [])
  else Some (s, []).
Fixpoint cancel_each_a (ids : list Z) (l : list key) (s : state) : option (state * list Z) :=
  match l with
  | [] => Some (s, [])
  | k :: t => do r1 <- cancel_one_a ids k s; do r2 <- cancel_each_a ids t (fst r1); Some (fst r2, snd r1 ++ snd r2)
  end.
Definition cancel_all_a (s : state) (u : Z) (ids : list Z) : option (state * list ann) :=
  if existsb (fun i => negb (is_some (get_pair s i))) ids then None
  else do r <- cancel_each_a ids (map fst (st_oidx s (User u))) s; Some (fst r, [ACancelAll u ids (snd r)]).

(** The handlers, msg_server.go; UpdateParams and bank sends announce nothing here. *)
Definition handle_a (s : state) (m : msg) : option (state * list ann) :=
  match m with
  | MCreatePair u b q => create_pair_a s u b q
  | MCreatePool u i cs => create_pool_a s u i cs
  | MCreateRangedPool u i cs a b c => create_rpool_a s u i cs a b c
  | MDeposit u i cs => deposit_msg_a s u i cs
  | MWithdraw u i d x => withdraw_msg_a s u i d x
  | MLimitOrder u i d od o dd p a l => place_order_a s TLimit u i d od o dd (Some p) a l
  | MMarketOrder u i d od o dd a l => place_order_a s TMarket u i d od o dd None a l
  | MMMOrder u i d od o dd p a l => mm_order_a s u i d od o dd p a l
  | MCancelOrder u i j => cancel_order_a s u i j
  | MCancelAllOrders u ids => cancel_all_a s u ids
  | MUpdateParams _ | MSend _ _ _ => do s' <- handle s m; Some (s', [])
  end.
Definition deliver_a (s : state) (m : msg) : option (state * list ann) := if validate_basic m then handle_a s m else None.
