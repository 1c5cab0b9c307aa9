(** The batch of /repo/x/dex/keeper with the overflow checks of [MatchChk]: the same functions as in
    [KeeperModel], [None] where [math.Int] or [math.LegacyDec] panics during matching.  A panic in
    the end blocker stops the chain. *)
From Verif Require Import Base Dec TickModel OrderModel MatchModel MatchSpec MatchProofs PoolModel KeeperModel KeeperSpec MatchChk.

(** sort.Search and findFirstTrueCondition, util.go:110-127, with a condition that may panic. *)
Fixpoint search_loop_c (fuel : nat) (f : Z -> option bool) (i j : Z) : option Z :=
  match fuel with
  | O => Some i
  | S k =>
      if i <? j then
        let h := (i + j) / 2 in
        do b <- f h; if b then search_loop_c k f i h else search_loop_c k f (h + 1) j
      else Some i
  end.
Definition go_search_c (n : Z) (f : Z -> option bool) : option Z :=
  search_loop_c (S (S (Z.to_nat (Z.log2 n)))) f 0 n.
Definition find_first_true_c (start stop : Z) (f : Z -> option bool) : option (option Z) :=
  if start <? stop then
    do g <- go_search_c (stop - start + 1) (fun i => f (start + i));
    let i := start + g in Some (if stop <? i then None else Some i)
  else
    do g <- go_search_c (start - stop + 1) (fun i => f (start - i));
    let i := start - g in Some (if i <? stop then None else Some i).

(** OrderView, view.go:15-20, for inclusive queries. *)
Record oview_c := mkOVc {
  oc_highest_buy : option (option dec);
  oc_lowest_sell : option (option dec);
  oc_buy_over : dec -> option Z;
  oc_sell_under : dec -> option Z }.
Definition oc_of_view (v : view) : oview_c :=
  mkOVc (Some (view_highest_buy v)) (Some (view_lowest_sell v))
        (fun p => Some (view_buy_over v p true)) (fun p => Some (view_sell_under v p true)).
(** A pool, pool.go:98-149 and 343-403. *)
Definition oc_of_pool (p : pool) : oview_c :=
  let pr := do x <- of_res (pool_price p); Some (Some x) in
  mkOVc pr pr (fun price => of_res (buy_amount_over p price)) (fun price => of_res (sell_amount_under p price)).
(** MultipleOrderViews, view.go:183-221. *)
Fixpoint best_c (gt : dec -> dec -> bool) (l : list (option (option dec))) (acc : option dec) : option (option dec) :=
  match l with [] => Some acc | x :: t => do p <- x; best_c gt t (opt_better gt acc p) end.
Fixpoint add_c (l : list (option Z)) (acc : Z) : option Z :=
  match l with [] => Some acc | x :: t => do a <- x; do b <- of_res (i_add acc a); add_c t b end.
Definition multi_c (vs : list oview_c) : oview_c :=
  mkOVc (best_c Z.gtb (map oc_highest_buy vs) None) (best_c Z.ltb (map oc_lowest_sell vs) None)
        (fun p => add_c (map (fun v => oc_buy_over v p) vs) 0) (fun p => add_c (map (fun v => oc_sell_under v p) vs) 0).

(** FindMatchPrice, match.go:74-107. *)
Definition find_match_price_c (ov : oview_c) (prec : Z) : option (option dec) :=
  do hb <- oc_highest_buy ov;
  match hb with
  | None => Some None
  | Some hb =>
      do ls <- oc_lowest_sell ov;
      match ls with
      | None => Some None
      | Some ls =>
          if hb <? ls then Some None
          else
            let lo := tick_to_index (lowest_tick prec) prec in
            let hi := tick_to_index (highest_tick prec) prec in
            do i <- find_first_true_c lo hi (fun i =>
                      do s <- oc_sell_under ov (tick_from_index i prec);
                      if 0 <? s then do b <- oc_buy_over ov (tick_from_index (i + 1) prec); Some (b <=? s) else Some false);
            match i with
            | None => Some None
            | Some i =>
                do j <- find_first_true_c hi lo (fun i =>
                          do b <- oc_buy_over ov (tick_from_index i prec);
                          if 0 <? b then do s <- oc_sell_under ov (tick_from_index (i - 1) prec); Some (s <=? b) else Some false);
                match j with
                | None => Some None
                | Some j =>
                    do sum <- of_res (c_add (tick_from_index i prec) (tick_from_index j prec));
                    Some (Some (round_price (dquo_int sum 2) prec))
                end
            end
      end
  end.

(** NewPoolOrder, types/order.go:93-103, with OfferCoinAmount, amm/util.go:22-31. *)
Definition pool_order_c (id : Z) (d : dir) (price : dec) (amt : Z) : option order :=
  do offer <- (match d with
               | Buy => do v <- of_res (c_mul_int price amt); of_res (c_trunc (dceil v))
               | Sell => Some amt
               end);
  Some (new_order d price amt offer 0 (KPool id)).
(** Pool orders at the match price, swap.go:364-373. *)
Definition orders_at_c (price : dec) (ip : Z * pool) : option (list order) :=
  do b <- of_res (buy_amount_over (snd ip) price);
  do bo <- (if 0 <? b then do o <- pool_order_c (fst ip) Buy price b; Some [o] else Some []);
  do c <- of_res (sell_amount_under (snd ip) price);
  do so <- (if 0 <? c then do o <- pool_order_c (fst ip) Sell price c; Some [o] else Some []);
  Some (bo ++ so).
Fixpoint orders_at_all_c (price : dec) (ps : list (Z * pool)) : option (list order) :=
  match ps with [] => Some [] | ip :: t => do a <- orders_at_c price ip; do r <- orders_at_all_c price t; Some (a ++ r) end.

(** Keeper.Match, swap.go:352-384.  Panics while the pools generate their orders around the last
    price are recovered in the code (pool.go:593-597, 634-638), so [orders_around] is unchanged. *)
Definition kmatch_c iter (prm : params) (h : heap) (ps : list (Z * pool)) (last : option dec)
  : option (heap * option (heap * dec * Z)) :=
  let prec := pm_tick_prec prm in
  match last with
  | None =>
      do ob <- new_order_book_c h;
      do v <- make_view_c h ob;
      let ov := multi_c (oc_of_view v :: map (fun ip => oc_of_pool (snd ip)) ps) in
      do hb <- oc_highest_buy ov; do ls <- oc_lowest_sell ov;
      let crossed := match hb, ls with Some hb, Some ls => ls <=? hb | _, _ => false end in
      if crossed && (18 <? prec) then None
      else
        do f <- find_match_price_c ov prec;
        match f with
        | None => Some (h, None)
        | Some mp =>
            do po <- orders_at_all_c mp ps;
            let h1 := h ++ po in
            do ob1 <- new_order_book_c h1;
            do r <- match_single_c iter h1 ob1 mp;
            Some (h1, match r with Some (h2, qd) => Some (h2, mp, qd) | None => None end)
        end
  | Some last =>
      do lim <- of_res (price_limits last (pm_price_ratio prm) prec);
      do po <- orders_around (fst lim) (snd lim) prec ps;
      let h1 := h ++ po in
      do ob1 <- new_order_book_c h1;
      do r <- match_book_c iter h1 ob1 last;
      let '(h2, mp, qd, matched) := r in
      Some (h1, if matched then Some (h2, mp, qd) else None)
  end.

(** ExecuteMatching, swap.go:288-350; see [execute_matching]. *)
Definition execute_matching_c iter (pr : pair) (s : state) : option state :=
  do r1 <- collect_orders (mprefix (st_orders s) (pr_id pr)) s [];
  do r2 <- collect_pools (mprefix (st_plidx (fst r1)) (pr_id pr)) pr (fst r1);
  do m <- kmatch_c iter (st_params s) (snd r1) (snd r2) (pr_last_price pr);
  match snd m with
  | None => Some (put_pair (fst r2) (mkPair (pr_id pr) (pr_base pr) (pr_quote pr) (pr_last_order pr) (pr_last_price pr) (pr_batch pr + 1)))
  | Some (h2, mp, qd) =>
      do s3 <- apply_match (fst r2) pr (map (get h2) (book_orders (new_order_book (fst m)))) qd;
      Some (put_pair s3 (mkPair (pr_id pr) (pr_base pr) (pr_quote pr) (pr_last_order pr) (Some mp) (pr_batch pr + 1)))
  end.
(** ExecuteRequests, batch.go:11-55. *)
Definition execute_requests_c iter (s : state) : option state :=
  do s1 <- for_each (fun kv => execute_matching_c iter (snd kv)) (st_pairs s) s;
  do s2 <- for_each (fun kv => expire_order (snd kv)) (st_orders s1) s1;
  do s3 <- for_each (fun kv => execute_dep_if (snd kv)) (st_deps s2) s2;
  for_each (fun kv => execute_wd_if (snd kv)) (st_wds s3) s3.
(** EndBlocker, module/abci.go:20-27. *)
Definition end_block_c iter (s : state) : option state :=
  if st_height s mod pm_batch_size (st_params s) =? 0 then execute_requests_c iter s else Some s.

(** Histories of the chain with these checks; compare [step] and [runs] in KeeperSpec. *)
Inductive step_c (Q : params -> Prop) : config -> config -> Prop :=
| StepC_begin s t : st_time s <= t -> step_c Q (Between, s) (InBlock, begin_block s t)
| StepC_msg s m s' : deliver s m = Some s' -> (forall p, m = MUpdateParams p -> Q p) -> step_c Q (InBlock, s) (InBlock, s')
| StepC_end iter s s' : is_perm_iter iter -> end_block_c iter s = Some s' -> step_c Q (InBlock, s) (Between, s').
Inductive runs_c (Q : params -> Prop) : config -> config -> Prop :=
| RunsC_refl c : runs_c Q c c
| RunsC_step c1 c2 c3 : runs_c Q c1 c2 -> step_c Q c2 c3 -> runs_c Q c1 c3.
Definition reach_c (Q : params -> Prop) (c : config) : Prop :=
  exists s0, genesis Q s0 /\ runs_c Q (Between, s0) c.
