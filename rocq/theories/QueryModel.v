(** gRPC queries of the dex module, x/dex/keeper/grpc_query.go, and the secondary indexes that serve
    only them.  The order book query is modelled in DepthModel. *)
From Verif Require Import Base Dec OrderModel PoolModel KeeperModel.

(** ** FilteredPaginate, cosmos-sdk v0.50.6 types/query/filtered_pagination.go (a dependency, not in
    /repo).  Forward direction only; [offset + limit] is taken not to wrap at 2^64.  The prefix store
    is the sorted list of entries under the prefix; [hit] is the callback's result and [resp] what it
    appends when asked to accumulate (None: the callback panics). *)
Record page_req := mkPage { pg_key : option key; pg_offset : Z; pg_limit : Z; pg_count : bool }.
Record page_res := mkRes { rs_next : option key; rs_total : Z }.

(** With a start key: stop at the entry after [limit] hits. *)
Fixpoint page_key {V A : Type} (hit : key * V -> bool) (resp : key * V -> option A) (limit hits : Z) (l : amap V) : option (list A * option key) :=
  match l with
  | [] => Some ([], None)
  | e :: t =>
      if hits =? limit then Some ([], Some (fst e))
      else if hit e then do a <- resp e; do r <- page_key hit resp limit (hits + 1) t; Some (a :: fst r, snd r)
      else page_key hit resp limit hits t
  end.
(** With an offset: accumulate the hits numbered [offset] to [last - 1]; the next key is that of hit
    number [last]; go on to the end only to count. *)
Fixpoint page_off {V A : Type} (hit : key * V -> bool) (resp : key * V -> option A) (offset last : Z) (count : bool) (hits : Z) (next : option key) (l : amap V)
    : option (list A * (option key * Z)) :=
  match l with
  | [] => Some ([], (next, hits))
  | e :: t =>
      let acc := (offset <=? hits) && (hits <? last) && hit e in
      let hits' := if hit e then hits + 1 else hits in
      let next' := if hits' =? last + 1 then match next with None => Some (fst e) | Some _ => next end else next in
      do a <- (if acc then do a <- resp e; Some [a] else Some []);
      if (hits' =? last + 1) && negb count then Some (a, (next', hits'))
      else do r <- page_off hit resp offset last count hits' next' t; Some (a ++ fst r, snd r)
  end.
Definition paginate {V A : Type} (hit : key * V -> bool) (resp : key * V -> option A) (l : amap V) (req : page_req) : option (list A * page_res) :=
  if (0 <? pg_offset req) && is_some (pg_key req) then None
  else
    let limit := if pg_limit req =? 0 then 100 else pg_limit req in
    let count := (pg_limit req =? 0) || pg_count req in
    match pg_key req with
    | Some k => do r <- page_key hit resp limit 0 (filter (fun e => negb (key_ltb (fst e) k)) l); Some (fst r, mkRes (snd r) 0)
    | None => do r <- page_off hit resp (pg_offset req) (pg_offset req + limit) count 0 None l;
              Some (fst r, mkRes (fst (snd r)) (if count then snd (snd r) else 0))
    end.

(** ** Queries over the main stores *)
Definition value {V} (e : key * V) : option V := Some (snd e).
(** DepositRequests, grpc_query.go:264-303; DepositRequest, 306-328. *)
Definition q_deposits s (i : Z) (req : page_req) : option (list dreq * page_res) :=
  if i =? 0 then None else paginate (fun e => dr_pool (snd e) =? i) value (st_deps s) req.
Definition q_deposit s (i j : Z) : option dreq := if (i =? 0) || (j =? 0) then None else mget (st_deps s) (i, j).
(** WithdrawRequests, grpc_query.go:331-370; WithdrawRequest, 373-395. *)
Definition q_withdrawals s (i : Z) (req : page_req) : option (list wreq * page_res) :=
  if i =? 0 then None else paginate (fun e => wr_pool (snd e) =? i) value (st_wds s) req.
Definition q_withdrawal s (i j : Z) : option wreq := if (i =? 0) || (j =? 0) then None else mget (st_wds s) (i, j).
(** Orders, grpc_query.go:398-437; Order, 440-462. *)
Definition q_orders s (i : Z) (req : page_req) : option (list korder * page_res) :=
  if i =? 0 then None else paginate (fun e => ko_pair (snd e) =? i) value (st_orders s) req.
Definition q_order s (i j : Z) : option korder := if (i =? 0) || (j =? 0) then None else get_order s i j.
(** OrdersByOrderer, grpc_query.go:465-503: the index entries of the orderer; the order is read from
    the main store and its absence ignored (a zero value would be returned: None here). *)
Definition q_orders_by s (a : addr) (i : Z) (req : page_req) : option (list (option korder) * page_res) :=
  paginate (fun e => (i =? 0) || (fst (fst e) =? i)) (fun e => Some (get_order s (fst (fst e)) (snd (fst e)))) (st_oidx s a) req.
(** NumMMOrders, grpc_query.go:582-603. *)
Definition q_num_mm s (a : addr) (i : Z) : option Z := if i =? 0 then None else Some (st_mm s a i).

(** NewPoolResponse, types/pool.go:130-157 (the fields copied from the pool are kept as the pool);
    fails when the pool or its price cannot be computed. *)
Record pool_view := mkPoolView { pv_pool : kpool; pv_quote : denom * Z; pv_base : denom * Z; pv_supply : Z; pv_price : option dec }.
Definition pool_response s (p : kpool) : option pool_view :=
  do pr <- get_pair s (pl_pair p);
  let view := mkPoolView p (pr_quote pr, pool_rx s p pr) (pr_base pr, pool_ry s p pr) (pool_ps s p) in
  if pl_disabled p then Some (view None)
  else do ap <- of_res (amm_pool p (pool_rx s p pr) (pool_ry s p pr) 0); do price <- of_res (pool_price ap); Some (view (Some price)).
(** Pools, grpc_query.go:110-182.  [dis]: the optional filter on the disabled flag. *)
Definition shown (dis : option bool) (p : option kpool) : bool :=
  match dis with None => true | Some b => Bool.eqb (match p with Some p => pl_disabled p | None => false end) b end.
Definition q_pools s (i : Z) (dis : option bool) (req : page_req) : option (list pool_view * page_res) :=
  if i =? 0 then paginate (fun e => shown dis (Some (snd e))) (fun e => pool_response s (snd e)) (st_pools s) req
  else paginate (fun e => shown dis (get_pool s (snd (fst e)))) (fun e => do p <- get_pool s (snd (fst e)); pool_response s p) (mprefix (st_plidx s) i) req.
(** Pool, grpc_query.go:185-206. *)
Definition q_pool s (i : Z) : option pool_view := if i =? 0 then None else do p <- get_pool s i; pool_response s p.
(** PoolByPoolCoinDenom, grpc_query.go:237-261; the denomination is parsed by ParsePoolCoinDenom (C46). *)
Definition q_pool_by_denom s (d : denom) : option pool_view :=
  match d with PoolCoin i => do p <- get_pool s i; pool_response s p | Coin _ => None end.
(** Pair, grpc_query.go:89-107. *)
Definition q_pair s (i : Z) : option pair := if i =? 0 then None else get_pair s i.

(** ** Indexes that serve queries only.  Pair lookup (store.go:83-92): keys (denom A, denom B, pair id);
    [rank] gives the position of a denomination in the byte order of the keys.  Pool by reserve address
    (store.go:163-195). *)
Record qidx := mkQidx { x_lookup : denom -> amap unit; x_reserve : addr -> option Z }.
Definition no_idx : qidx := mkQidx (fun _ => []) (fun _ => None).
(** SetPairLookupIndex, store.go:83-86. *)
Definition set_lookup (rank : denom -> Z) (x : qidx) (a b : denom) (i : Z) : qidx :=
  mkQidx (fun d => if denom_eqb d a then mset (x_lookup x d) (rank b, i) tt else x_lookup x d) (x_reserve x).
(** SetPoolByReserveIndex, store.go:186-190; the reserve address is a function of the pool id. *)
Definition set_reserve (x : qidx) (i : Z) : qidx :=
  mkQidx (x_lookup x) (fun a => if addr_eqb a (PoolReserve i) then Some i else x_reserve x a).
(** What a delivered message does to these indexes: CreatePair (pair.go:49-54), CreatePool and
    CreateRangedPool (pool.go:130-134, 238-242); no other code writes them outside genesis. *)
Definition index_msg (rank : denom -> Z) (s : state) (m : msg) (x : qidx) : qidx :=
  match m with
  | MCreatePair _ b q => let i := st_last_pair s + 1 in set_lookup rank (set_lookup rank x b q i) q b i
  | MCreatePool _ _ _ | MCreateRangedPool _ _ _ _ _ _ => set_reserve x (st_last_pool s + 1)
  | _ => x
  end.
(** InitGenesis, genesis.go:18-28, for the indexes. *)
Definition index_genesis (rank : denom -> Z) (ps : list pair) (pls : list kpool) : qidx :=
  fold_left (fun x p => set_reserve x (pl_id p)) pls
    (fold_left (fun x p => set_lookup rank (set_lookup rank x (pr_base p) (pr_quote p) (pr_id p)) (pr_quote p) (pr_base p) (pr_id p)) ps no_idx).

(** Pairs, grpc_query.go:29-86, with no, one or two denominations; the pair is read from the main store
    (absence ignored: None). *)
Definition q_pairs s (rank : denom -> Z) (x : qidx) (ds : list denom) (req : page_req) : option (list (option pair) * page_res) :=
  match ds with
  | [] => paginate (fun _ => true) (fun e => Some (Some (snd e))) (st_pairs s) req
  | [a] => paginate (fun _ => true) (fun e => Some (get_pair s (snd (fst e)))) (x_lookup x a) req
  | [a; b] => paginate (fun _ => true) (fun e => Some (get_pair s (snd (fst e)))) (mprefix (x_lookup x a) (rank b)) req
  | _ => None
  end.
(** PoolByReserveAddress, grpc_query.go:209-234. *)
Definition q_pool_by_reserve s (x : qidx) (a : addr) : option pool_view :=
  do i <- x_reserve x a; do p <- get_pool s i; pool_response s p.
