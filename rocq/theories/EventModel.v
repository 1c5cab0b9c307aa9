(** The events that report what became of orders and requests.

    Each function below is the function of the same name in [KeeperModel] together with the list of the events
    it emits, oldest first (that the states agree is proved in [EventProofs]).  Modelled: the events of
    FinishOrder, FinishDepositRequest, FinishWithdrawRequest and ApplyMatchResult with their attributes as
    values instead of strings.  Left out: the events by which the message handlers announce a new pair, pool,
    order or request (msg_server.go and the handlers), the bank's own events, and the ABCI encoding. *)
From Verif Require Import Base Dec OrderModel MatchModel PoolModel KeeperModel.

Inductive event :=
| OrderResult (d : dir) (orderer : addr) (pair id amt open : Z) (offer_denom : denom) (offer remaining : Z) (demand_denom : denom) (received : Z) (st : ostatus)
| DepositResult (id : Z) (depositor : addr) (pool : Z) (deposited accepted refunded : coins) (minted : Z) (st : rstatus)
| WithdrawalResult (id : Z) (withdrawer : addr) (pool : Z) (pool_denom : denom) (pool_amt : Z) (refunded withdrawn : coins) (st : rstatus)
| UserOrderMatched (d : dir) (orderer : addr) (pair id matched : Z) (offer_denom : denom) (paid : Z) (demand_denom : denom) (received : Z)
| PoolOrderMatched (d : dir) (pair pool matched : Z) (paid_denom : denom) (paid : Z) (received_denom : denom) (received : Z).

(** Attributes of the order_result event, swap.go:524-538. *)
Definition order_event (o : korder) : event :=
  OrderResult (ko_dir o) (ko_owner o) (ko_pair o) (ko_id o) (ko_amt o) (ko_open o) (ko_offer_denom o) (ko_offer o) (ko_remaining o) (ko_demand_denom o) (ko_received o) (ko_status o).

(** FinishOrder, swap.go:500-541: no event for an order that has ended before. *)
Definition finish_order_e (s : state) (o : korder) (st : ostatus) : option (state * list event) :=
  do s' <- finish_order s o st;
  Some (s', if o_terminal (ko_status o) then [] else [order_event (ko_with_status o st)]).

(** FinishDepositRequest, pool.go:451-480. *)
Definition finish_dep_e (s : state) (r : dreq) (st : rstatus) : option (state * list event) :=
  do s' <- finish_dep s r st;
  match dr_status r with
  | RNotExecuted => do refund <- coins_sub (dr_coins r) (dr_accepted r); Some (s', [DepositResult (dr_id r) (dr_owner r) (dr_pool r) (dr_coins r) (dr_accepted r) refund (dr_minted r) st])
  | _ => Some (s', [])
  end.

(** FinishWithdrawRequest, pool.go:539-568. *)
Definition finish_wd_e (s : state) (r : wreq) (st : rstatus) : option (state * list event) :=
  do s' <- finish_wd s r st;
  match wr_status r with
  | RNotExecuted => Some (s', [WithdrawalResult (wr_id r) (wr_owner r) (wr_pool r) (wr_denom r) (wr_amt r) (match st with RFailed => [(wr_denom r, wr_amt r)] | _ => [] end) (wr_withdrawn r) st])
  | _ => Some (s', [])
  end.

(** ExecuteDepositRequest, pool.go:397-448. *)
Definition execute_dep_e (s : state) (r : dreq) : option (state * list event) :=
  do p <- get_pool s (dr_pool r);
  if pl_disabled p then finish_dep_e s r RFailed
  else
    do pr <- get_pair s (pl_pair p);
    let rx := pool_rx s p pr in
    let ry := pool_ry s p pr in
    let ps := pool_ps s p in
    do ap <- of_res (amm_pool p rx ry ps);
    if is_depleted ap then finish_dep_e (mark_disabled s p) r RFailed
    else
      do res <- of_res (deposit rx ry ps (amount_of (dr_coins r) (pr_quote pr)) (amount_of (dr_coins r) (pr_base pr)));
      let '(ax, ay, pc) := res in
      if pc =? 0 then finish_dep_e s r RFailed
      else
        do minting <- new_coins [(PoolCoin (pl_id p), pc)];
        let b1 := mint (st_bank s) minting in
        do accepted <- new_coins [(pr_quote pr, ax); (pr_base pr, ay)];
        let q := bulk_queue (bulk_queue [] GlobalEscrow (PoolReserve (pl_id p)) accepted) DexModule (dr_owner r) minting in
        do b2 <- bulk_run b1 q;
        finish_dep_e (set_bank s b2) (mkDreq (dr_id r) (dr_pool r) (dr_height r) (dr_owner r) (dr_coins r) accepted pc (dr_status r)) RSucceeded.

(** ExecuteWithdrawRequest, pool.go:483-536. *)
Definition execute_wd_e (s : state) (r : wreq) : option (state * list event) :=
  do p <- get_pool s (wr_pool r);
  if pl_disabled p then finish_wd_e s r RFailed
  else
    do pr <- get_pair s (pl_pair p);
    let rx := pool_rx s p pr in
    let ry := pool_ry s p pr in
    let ps := pool_ps s p in
    do ap <- of_res (amm_pool p rx ry ps);
    if is_depleted ap then finish_wd_e (mark_disabled s p) r RFailed
    else
      do res <- of_res (withdraw rx ry ps (wr_amt r) (pm_withdraw_fee (st_params s)));
      let '(x, y) := res in
      if (x =? 0) && (y =? 0) then finish_wd_e s r RFailed
      else
        do withdrawn <- new_coins [(pr_quote pr, x); (pr_base pr, y)];
        do burning <- new_coins [(wr_denom r, wr_amt r)];
        let q := bulk_queue (bulk_queue [] GlobalEscrow DexModule burning) (PoolReserve (pl_id p)) (wr_owner r) withdrawn in
        do b1 <- bulk_run (st_bank s) q;
        do b2 <- burn b1 burning;
        let s1 := set_bank s b2 in
        let s2 := if wr_amt r =? ps then mark_disabled s1 p else s1 in
        finish_wd_e s2 (mkWreq (wr_id r) (wr_pool r) (wr_height r) (wr_owner r) (wr_denom r) (wr_amt r) withdrawn (wr_status r)) RSucceeded.

(** CancelOrder, swap.go:197-238. *)
Definition cancel_order_e (s : state) (u i j : Z) : option (state * list event) :=
  do o <- get_order s i j;
  if negb (addr_eqb (User u) (ko_owner o)) then None
  else if match ko_status o with OCanceled => true | _ => false end then None
  else
    let batch := match get_pair s i with Some pr => pr_batch pr | None => 0 end in
    if ko_batch o =? batch then None else finish_order_e s o OCanceled.

(** A loop that emits events. *)
Fixpoint for_each_e {A} (f : A -> state -> option (state * list event)) (l : list A) (s : state) : option (state * list event) :=
  match l with
  | [] => Some (s, [])
  | x :: t => do r1 <- f x s; do r2 <- for_each_e f t (fst r1); Some (fst r2, snd r1 ++ snd r2)
  end.

(** CancelAllOrders, swap.go:241-286. *)
Definition cancel_one_e (ids : list Z) (k : key) (s : state) : option (state * list event) :=
  do o <- get_order s (fst k) (snd k);
  if (match ids with [] => true | _ => false end) || existsb (Z.eqb (ko_pair o)) ids then
    let batch := match get_pair s (ko_pair o) with Some pr => pr_batch pr | None => 0 end in
    if negb (match ko_status o with OCanceled => true | _ => false end) && (ko_batch o <? batch)
    then finish_order_e s o OCanceled else Some (s, [])
  else Some (s, []).
Definition cancel_all_e (s : state) (u : Z) (ids : list Z) : option (state * list event) :=
  if existsb (fun i => negb (is_some (get_pair s i))) ids then None
  else for_each_e (cancel_one_e ids) (map fst (st_oidx s (User u))) s.

(** First loop of ExecuteMatching, swap.go:291-317. *)
Fixpoint collect_orders_e (l : list (key * korder)) (s : state) (h : heap) : option (state * heap * list event) :=
  match l with
  | [] => Some (s, h, [])
  | (_, o) :: t =>
      if o_terminal (ko_status o) then collect_orders_e t s h
      else if match ko_status o with ONotExecuted => false | _ => expired_at o (st_time s) end then
        do r1 <- finish_order_e s o OExpired; do r2 <- collect_orders_e t (fst r1) h; Some (fst r2, snd r1 ++ snd r2)
      else
        do uo <- of_res (user_order o);
        let s1 := match ko_status o with ONotExecuted => put_order s (ko_with_status o ONotMatched) | _ => s end in
        collect_orders_e t s1 (h ++ [uo])
  end.

(** PoolMatchResult, swap.go:403-409. *)
Record pool_result := mkPR { ps_pool : Z; ps_dir : dir; ps_paid_denom : denom; ps_paid : Z; ps_recv_denom : denom; ps_recv : Z; ps_matched : Z }.
(** Adding a pool order to poolMatchResultById and poolMatchResults, swap.go:452-474: a new entry goes to the end. *)
Fixpoint note_pool (acc : list pool_result) (id : Z) (d : dir) (pd : denom) (paid : Z) (rd : denom) (recv matched : Z) : list pool_result :=
  match acc with
  | [] => [mkPR id d pd paid rd recv matched]
  | r :: t =>
      if ps_pool r =? id then mkPR id (ps_dir r) (ps_paid_denom r) (ps_paid r + paid) (ps_recv_denom r) (ps_recv r + recv) (ps_matched r + matched) :: t
      else r :: note_pool t id d pd paid rd recv matched
  end.
(** Attributes of the pool_order_matched event, swap.go:483-496. *)
Definition pool_event (i : Z) (r : pool_result) : event := PoolOrderMatched (ps_dir r) i (ps_pool r) (ps_matched r) (ps_paid_denom r) (ps_paid r) (ps_recv_denom r) (ps_recv r).

(** Main loop of ApplyMatchResult, swap.go:410-479.  The event of a completed order comes before that of its match. *)
Fixpoint apply_orders_e (pr : pair) (os : list order) (s : state) (q : bulk) (seen : list (Z * dir)) (acc : list pool_result) : option (state * bulk * list event * list pool_result) :=
  match os with
  | [] => Some (s, q, [], acc)
  | o :: t =>
      if is_matched o then
        match o_kind o with
        | KUser id =>
            do ko <- get_order s (pr_id pr) id;
            if ko_remaining ko <? o_paid o then None
            else
              let ko' := ko_with_fill ko (ko_remaining ko - o_paid o) (ko_received ko + o_recv o) (ko_open ko - (o_amt o - o_open o)) in
              do r1 <- (if ko_open ko' =? 0 then finish_order_e s ko' OCompleted
                        else Some (put_order s (ko_with_status ko' OPartiallyMatched), []));
              do cs <- new_coins [(ko_demand_denom ko, o_recv o)];
              do r2 <- apply_orders_e pr t (fst r1) (bulk_queue q (PairEscrow (pr_id pr)) (ko_owner ko) cs) seen acc;
              let '(s2, q2, ev2, acc2) := r2 in
              Some (s2, q2, snd r1 ++ UserOrderMatched (ko_dir ko) (ko_owner ko) (pr_id pr) id (o_amt o - o_open o) (ko_offer_denom ko) (o_paid o) (ko_demand_denom ko) (o_recv o) :: ev2, acc2)
        | KPool id =>
            do cs <- new_coins [(demand_denom_of pr (o_dir o), o_recv o)];
            let q1 := bulk_queue q (PairEscrow (pr_id pr)) (PoolReserve id) cs in
            if existsb (fun x => (fst x =? id) && negb (dir_eqb (snd x) (o_dir o))) seen then None
            else apply_orders_e pr t s q1 ((id, o_dir o) :: seen) (note_pool acc id (o_dir o) (offer_denom_of pr (o_dir o)) (o_paid o) (demand_denom_of pr (o_dir o)) (o_recv o) (o_amt o - o_open o))
        | KBase => None
        end
      else apply_orders_e pr t s q seen acc
  end.

(** ApplyMatchResult, swap.go:386-498. *)
Definition apply_match_e (s : state) (pr : pair) (os : list order) (qd : Z) : option (state * list event) :=
  do q1 <- queue_pool_payments pr os [];
  do b1 <- bulk_run (st_bank s) q1;
  do r <- apply_orders_e pr os (set_bank s b1) [] [] [];
  let '(s1, q, ev, acc) := r in
  do dust <- new_coins [(pr_quote pr, qd)];
  let q2 := bulk_queue q (PairEscrow (pr_id pr)) (pm_dust_collector (st_params s)) dust in
  do b2 <- bulk_run (st_bank s1) q2;
  Some (set_bank s1 b2, ev ++ map (pool_event (pr_id pr)) acc).

(** ExecuteMatching, swap.go:288-350. *)
Definition execute_matching_e iter (pr : pair) (s : state) : option (state * list event) :=
  do r1 <- collect_orders_e (mprefix (st_orders s) (pr_id pr)) s [];
  let '(s1, h, ev1) := r1 in
  do r2 <- collect_pools (mprefix (st_plidx s1) (pr_id pr)) pr s1;
  do m <- kmatch iter (st_params s) h (snd r2) (pr_last_price pr);
  match snd m with
  | None => Some (put_pair (fst r2) (mkPair (pr_id pr) (pr_base pr) (pr_quote pr) (pr_last_order pr) (pr_last_price pr) (pr_batch pr + 1)), ev1)
  | Some (h2, mp, qd) =>
      do r3 <- apply_match_e (fst r2) pr (map (get h2) (book_orders (new_order_book (fst m)))) qd;
      Some (put_pair (fst r3) (mkPair (pr_id pr) (pr_base pr) (pr_quote pr) (pr_last_order pr) (Some mp) (pr_batch pr + 1)), ev1 ++ snd r3)
  end.

(** Second loop of ExecuteRequests, batch.go:20-34. *)
Definition expire_order_e (o : korder) (s : state) : option (state * list event) :=
  if o_matchable (ko_status o) && expired_at o (st_time s) then finish_order_e s o OExpired
  else
    do small <- of_res (is_too_small (ko_open o) (ko_price o));
    if small then finish_order_e s o OExpired else Some (s, []).
Definition execute_dep_if_e (r : dreq) (s : state) : option (state * list event) :=
  match dr_status r with RNotExecuted => execute_dep_e s r | _ => Some (s, []) end.
Definition execute_wd_if_e (r : wreq) (s : state) : option (state * list event) :=
  match wr_status r with RNotExecuted => execute_wd_e s r | _ => Some (s, []) end.

(** ExecuteRequests, batch.go:11-55. *)
Definition execute_requests_e iter (s : state) : option (state * list event) :=
  do r1 <- for_each_e (fun kv => execute_matching_e iter (snd kv)) (st_pairs s) s;
  do r2 <- for_each_e (fun kv => expire_order_e (snd kv)) (st_orders (fst r1)) (fst r1);
  do r3 <- for_each_e (fun kv => execute_dep_if_e (snd kv)) (st_deps (fst r2)) (fst r2);
  do r4 <- for_each_e (fun kv => execute_wd_if_e (snd kv)) (st_wds (fst r3)) (fst r3);
  Some (fst r4, snd r1 ++ snd r2 ++ snd r3 ++ snd r4).

(** EndBlocker, abci.go:20-27. *)
Definition end_block_e iter (s : state) : option (state * list event) :=
  if st_height s mod pm_batch_size (st_params s) =? 0 then execute_requests_e iter s else Some (s, []).

(** Message handlers: only the two cancel messages end orders, and none executes a request. *)
Definition deliver_e (s : state) (m : msg) : option (state * list event) :=
  if validate_basic m then
    match m with
    | MCancelOrder u i j => cancel_order_e s u i j
    | MCancelAllOrders u ids => cancel_all_e s u ids
    | _ => do s' <- handle s m; Some (s', [])
    end
  else None.
