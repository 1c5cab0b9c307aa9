(** Model of /repo/x/dex/amm/match.go, util.go, orderbook.go and view.go with the overflow checks of
    [math.Int] (256 bits) and [math.LegacyDec] (315 bits) at every operation.  [MatchModel] leaves
    them out; the functions here have the same structure and return [None] where the code panics. *)
From Verif Require Import Base Dec TickModel OrderModel MatchModel PoolModel KeeperModel.

(** MatchableAmount, util.go:33-48. *)
Definition matchable_c (o : order) (price : dec) : option Z :=
  do m <- (match o_dir o with
           | Buy => do r <- of_res (i_sub (o_offer o) (o_paid o));
                    do q <- of_res (c_quo_trunc (of_int r) price);
                    do a <- of_res (c_trunc q); Some (Z.min (o_open o) a)
           | Sell => Some (o_open o)
           end);
  do v <- of_res (c_mul_int price m);
  do t <- of_res (c_trunc v);
  Some (if t =? 0 then 0 else m).

(** A sum of Ints, added one after the other to [acc]. *)
Fixpoint sum_c (f : nat -> option Z) (ps : list nat) (acc : Z) : option Z :=
  match ps with
  | [] => Some acc
  | p :: t => do x <- f p; do a <- of_res (i_add acc x); sum_c f t a
  end.
(** TotalAmount, util.go:51-57. *)
Definition total_amount_c (h : heap) (ps : list nat) : option Z := sum_c (fun p => Some (o_amt (get h p))) ps 0.
(** TotalMatchableAmount, util.go:60-66. *)
Definition total_matchable_c (h : heap) (ps : list nat) (price : dec) : option Z :=
  sum_c (fun p => matchable_c (get h p) price) ps 0.

(** AddOrder and NewOrderBook, orderbook.go:17-38. *)
Definition add_order_c (h : heap) (ob : book) (p : nat) : option book :=
  do m <- matchable_c (get h p) (o_price (get h p));
  Some (if 0 <? m then
          match o_dir (get h p) with
          | Buy => mkBook (ticks_add false (buys ob) (o_price (get h p)) p) (sells ob)
          | Sell => mkBook (buys ob) (ticks_add true (sells ob) (o_price (get h p)) p)
          end
        else ob).
Fixpoint add_orders_c (h : heap) (ps : list nat) (ob : book) : option book :=
  match ps with [] => Some ob | p :: t => do b <- add_order_c h ob p; add_orders_c h t b end.
Definition new_order_book_c (h : heap) : option book := add_orders_c h (seq 0 (length h)) (mkBook [] []).

(** MakeView, view.go:26-56. *)
Fixpoint acc_ticks_c (h : heap) (acc : Z) (ts : list (dec * list nat)) : option acc_sums :=
  match ts with
  | [] => Some []
  | (p, ps) :: t =>
      do x <- total_matchable_c h ps p; do s <- of_res (i_add acc x);
      do r <- acc_ticks_c h s t; Some ((p, s) :: r)
  end.
Definition make_view_c (h : heap) (ob : book) : option view :=
  do b <- acc_ticks_c h 0 (buys ob); do s <- acc_ticks_c h 0 (sells ob); Some (mkView b s).

(** FillOrder, match.go:32-52. *)
Definition fill_order_c (h : heap) (p : nat) (amt : Z) (price : dec) : option (heap * Z) :=
  let o := get h p in
  do m <- matchable_c o price;
  if m <? amt then None
  else
    do v <- of_res (c_mul_int price amt);
    do x <- of_res (c_trunc (match o_dir o with Buy => dceil v | Sell => v end));
    let paid := match o_dir o with Buy => x | Sell => amt end in
    let recv := match o_dir o with Buy => amt | Sell => x end in
    do paid' <- of_res (i_add (o_paid o) paid);
    do recv' <- of_res (i_add (o_recv o) recv);
    do open' <- of_res (i_sub (o_open o) amt);
    Some (upd h p (mkOrder (o_dir o) (o_price o) (o_amt o) (o_offer o) open' paid' recv' (o_batch o) (o_kind o)),
          match o_dir o with Buy => paid | Sell => - recv end).

(** FulfillOrder, match.go:55-62. *)
Definition fulfill_order_c (h : heap) (p : nat) (price : dec) : option (heap * Z) :=
  do m <- matchable_c (get h p) price;
  if 0 <? m then fill_order_c h p m price else Some (h, 0).
(** FulfillOrders, match.go:66-72. *)
Fixpoint fulfill_orders_c (h : heap) (ps : list nat) (price : dec) (qd : Z) : option (heap * Z) :=
  match ps with
  | [] => Some (h, qd)
  | p :: t =>
      do r <- fulfill_order_c h p price;
      do q <- of_res (i_add qd (snd r));
      fulfill_orders_c (fst r) t price q
  end.

(** buildSide, match.go:118-130. *)
Fixpoint side_total_c (h : heap) (mp : dec) (ts : list (dec * list nat)) (acc : Z) : option Z :=
  match ts with
  | [] => Some acc
  | t :: r => do x <- total_matchable_c h (snd t) mp; do a <- of_res (i_add acc x); side_total_c h mp r a
  end.
(** One direction of the loop body, match.go:147-168; see [side_step]. *)
Definition side_step_c (h : heap) (mp : dec) (is_sell : bool) (st : list (dec * list nat)) (tot other : Z)
  : option (option (list (dec * list nat) * Z * Z * bool)) :=
  match st with
  | [] => Some None
  | t :: r =>
      do tick_amt <- total_matchable_c h (snd t) mp;
      let m := Z.min tot other in
      do others <- of_res (i_sub tot tick_amt);
      do partial <- of_res (i_sub m others);
      do zero <- (if m <=? others then Some true
                  else if is_sell then do v <- of_res (c_mul_int mp partial); do t <- of_res (c_trunc v); Some (t =? 0)
                  else Some false);
      if zero then
        match r with
        | [] => Some None
        | _ => Some (Some (r, others, m, true))
        end
      else Some (Some (st, tot, m, false))
  end.
(** The loop of FindMatchableAmountAtSinglePrice, match.go:145-172. *)
Fixpoint single_loop_c (fuel : nat) (h : heap) (mp : dec) (bst sst : list (dec * list nat)) (bt stt : Z)
  : option (option Z) :=
  match fuel with
  | O => None
  | S k =>
      do b <- side_step_c h mp false bst bt stt;
      match b with
      | None => Some None
      | Some (bst', bt', _, bd) =>
          do s <- side_step_c h mp true sst stt bt';
          match s with
          | None => Some None
          | Some (sst', stt', m, sd) =>
              if negb bd && negb sd then Some (Some m)
              else single_loop_c k h mp bst' sst' bt' stt'
          end
      end
  end.
(** FindMatchableAmountAtSinglePrice, match.go:111-173.  The buy side is built first. *)
Definition find_matchable_single_c (h : heap) (ob : book) (mp : dec) : option (option Z) :=
  let bs := side_prefix false mp (buys ob) in
  let ss := side_prefix true mp (sells ob) in
  do bt <- side_total_c h mp bs 0;
  match bs with
  | [] => Some None
  | _ =>
      do stt <- side_total_c h mp ss 0;
      match ss with
      | [] => Some None
      | _ => single_loop_c (S (length bs + length ss)) h mp (rev bs) (rev ss) bt stt
      end
  end.

(** First loop of DistributeOrderAmountToOrders, match.go:342-354, with the running total. *)
Fixpoint first_shares_c (h : heap) (price : dec) (amt total : Z) (ps : list nat) (acc : Z)
  : option (list (nat * option Z) * Z) :=
  match ps with
  | [] => Some ([], acc)
  | p :: t =>
      do m <- matchable_c (get h p) price;
      do e <- (if m =? 0 then Some None
               else
                 do q <- of_res (c_quo_trunc (of_int (o_amt (get h p))) (of_int total));
                 do v <- of_res (c_mul_int q amt);
                 do x <- of_res (c_trunc v);
                 let y := Z.min m x in
                 Some (if 0 <? y then Some y else None));
      do a <- (match e with Some y => of_res (i_add acc y) | None => Some acc end);
      do r <- first_shares_c h price amt total t a;
      Some ((p, e) :: fst r, snd r)
  end.
(** Second loop, match.go:356-369. *)
Fixpoint second_share_c (h : heap) (price : dec) (remaining : Z) (l : list (nat * option Z))
  : option (list (nat * option Z)) :=
  match l with
  | [] => Some []
  | (p, m) :: t =>
      if remaining =? 0 then Some l
      else
        let prev := opt_or0 m in
        do c <- matchable_c (get h p) price;
        do free <- of_res (i_sub c prev);
        let add := Z.min remaining free in
        do x <- of_res (i_add prev add);
        do rem' <- of_res (i_sub remaining add);
        do r <- second_share_c h price rem' t;
        Some ((p, Some x) :: r)
  end.
(** The condition of match.go:377 for each order: the matched and the unmatched ones. *)
Fixpoint split_shares_c (h : heap) (price : dec) (l : list (nat * option Z))
  : option (list (nat * option Z) * list (nat * option Z)) :=
  match l with
  | [] => Some ([], [])
  | pm :: t =>
      let m := opt_or0 (snd pm) in
      do ok <- (if m =? 0 then Some false
                else if is_buy (o_dir (get h (fst pm))) then Some true
                else do v <- of_res (c_mul_int price m); do x <- of_res (c_trunc v); Some (0 <? x));
      do r <- split_shares_c h price t;
      Some (if ok then (pm :: fst r, snd r) else (fst r, pm :: snd r))
  end.
(** Final loop, match.go:392-395. *)
Fixpoint fill_list_c (h : heap) (price : dec) (l : list (nat * Z)) (qd : Z) : option (heap * Z) :=
  match l with
  | [] => Some (h, qd)
  | (p, m) :: t =>
      do r <- fill_order_c h p m price;
      do q <- of_res (i_add qd (snd r));
      fill_list_c (fst r) price t q
  end.
(** DistributeOrderAmountToOrders, match.go:337-397. *)
Fixpoint dist_orders_c (iter : list (nat * Z) -> list (nat * Z))
  (fuel : nat) (h : heap) (ps : list nat) (amt : Z) (price : dec) : option (heap * Z) :=
  match fuel with
  | O => None
  | S k =>
      do total <- total_amount_c h ps;
      do l1 <- first_shares_c h price amt total ps 0;
      do rem <- of_res (i_sub amt (snd l1));
      do l2 <- second_share_c h price rem (fst l1);
      do mu <- split_shares_c h price l2;
      match snd mu with
      | _ :: _ =>
          match fst mu with
          | [] => dist_orders_c iter k h (removelast ps) amt price
          | _ => dist_orders_c iter k h (map fst (fst mu)) amt price
          end
      | [] => fill_list_c h price (iter (map (fun pm => (fst pm, opt_or0 (snd pm))) l2)) 0
      end
  end.

(** Loop of DistributeOrderAmountToTick, match.go:305-327, with the running difference. *)
Fixpoint dist_groups_c iter (h : heap) (gs : list (Z * list nat)) (remaining : Z) (price : dec) (qd : Z)
  : option (heap * Z) :=
  match gs with
  | [] => Some (h, qd)
  | (_, ps) :: t =>
      do open_amt <- total_matchable_c h ps price;
      if open_amt =? 0 then dist_groups_c iter h t remaining price qd
      else if open_amt <=? remaining then
        do r <- fulfill_orders_c h ps price 0;
        do q <- of_res (i_add qd (snd r));
        do rem' <- of_res (i_sub remaining open_amt);
        if rem' =? 0 then Some (fst r, q) else dist_groups_c iter (fst r) t rem' price q
      else
        do r <- dist_orders_c iter (S (length (sort_orders h ps))) h (sort_orders h ps) remaining price;
        do q <- of_res (i_add qd (snd r));
        Some (fst r, q)
  end.
Definition distribute_to_tick_c iter (h : heap) (t : dec * list nat) (amt : Z) (price : dec) : option (heap * Z) :=
  dist_groups_c iter h (group_by_batch h (snd t)) amt price 0.

(** distributeToTicks, match.go:184-199. *)
Fixpoint distribute_to_ticks_c iter (h : heap) (ts : list (dec * list nat)) (remaining : Z) (mp : dec) (qd : Z)
  : option (heap * Z) :=
  match ts with
  | [] => Some (h, qd)
  | t :: r =>
      do tick_amt <- total_matchable_c h (snd t) mp;
      if tick_amt <=? remaining then
        do x <- fulfill_orders_c h (snd t) mp 0;
        do q <- of_res (i_add qd (snd x));
        do rem' <- of_res (i_sub remaining tick_amt);
        if rem' =? 0 then Some (fst x, q) else distribute_to_ticks_c iter (fst x) r rem' mp q
      else
        do x <- distribute_to_tick_c iter h t remaining mp;
        do q <- of_res (i_add qd (snd x));
        Some (fst x, q)
  end.

(** MatchAtSinglePrice, match.go:178-204. *)
Definition match_single_c iter (h : heap) (ob : book) (mp : dec) : option (option (heap * Z)) :=
  do m <- find_matchable_single_c h ob mp;
  match m with
  | None => Some None
  | Some m =>
      do b <- distribute_to_ticks_c iter h (buys ob) m mp 0;
      do s <- distribute_to_ticks_c iter (fst b) (sells ob) m mp (snd b);
      Some (Some s)
  end.

(** PriceDirection, match.go:208-244. *)
Fixpoint beyond_at_c (h : heap) (increasing : bool) (last : dec) (ts : list (dec * list nat)) (over : Z) : option (Z * Z) :=
  match ts with
  | [] => Some (over, 0)
  | (p, ps) :: r =>
      if (if increasing then last <? p else p <? last) then Some (over, 0)
      else
        do amt <- total_matchable_c h ps last;
        if p =? last then Some (over, amt)
        else do o <- of_res (i_add over amt); beyond_at_c h increasing last r o
  end.
Definition price_direction_c (h : heap) (ob : book) (last : dec) : option pdir :=
  do b <- beyond_at_c h false last (buys ob) 0;
  do s <- beyond_at_c h true last (sells ob) 0;
  do sell <- of_res (i_add (snd s) (fst s));
  if sell <? fst b then Some PriceIncreasing
  else do buy <- of_res (i_add (snd b) (fst b));
       Some (if buy <? fst s then PriceDecreasing else PriceStaying).

(** The loop of Match, match.go:262-297. *)
Fixpoint match_loop_c iter (fuel : nat) (d : pdir) (h : heap) (bs ss : list (dec * list nat))
  (mp : dec) (qd : Z) (matched : bool) : option (heap * dec * Z * bool) :=
  match fuel with
  | O => None
  | S k =>
      match bs, ss with
      | bt :: br, st :: sr =>
          if fst st <=? fst bt then
            let p := match d with PriceIncreasing => fst st | _ => fst bt end in
            do bo <- total_matchable_c h (snd bt) p;
            do so <- total_matchable_c h (snd st) p;
            if bo <=? 0 then match_loop_c iter k d h br ss mp qd matched
            else if so <=? 0 then match_loop_c iter k d h bs sr mp qd matched
            else
              do x <- distribute_to_tick_c iter h bt (if bo <=? so then bo else so) p;
              do q1 <- of_res (i_add qd (snd x));
              do y <- distribute_to_tick_c iter (fst x) st (if so <=? bo then so else bo) p;
              do q2 <- of_res (i_add q1 (snd y));
              match_loop_c iter k d (fst y) (if bo <=? so then br else bs)
                (if so <=? bo then sr else ss) p q2 true
          else Some (h, mp, qd, matched)
      | _, _ => Some (h, mp, qd, matched)
      end
  end.
(** Match, match.go:249-299. *)
Definition match_book_c iter (h : heap) (ob : book) (last : dec) : option (heap * dec * Z * bool) :=
  match buys ob, sells ob with
  | [], _ => Some (h, last, 0, false)
  | _, [] => Some (h, last, 0, false)
  | _, _ =>
      do d <- price_direction_c h ob last;
      do r <- match_single_c iter h ob last;
      let '(h1, qd, matched) := match r with Some (h1, q) => (h1, q, true) | None => (h, 0, false) end in
      match d with
      | PriceStaying => Some (h1, last, qd, matched)
      | _ => match_loop_c iter (S (length (buys ob) + length (sells ob))) d h1
               (buys ob) (sells ob) last qd matched
      end
  end.
