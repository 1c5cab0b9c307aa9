(** Model of /repo/x/dex/amm/orderbook.go, view.go and match.go. *)
From Verif Require Import Base Dec TickModel OrderModel.

(** orderBookTick, orderbook.go:218-221: price and orders (pointers). *)
Notation tick := (dec * list nat)%type (only parsing).

(** OrderBook, orderbook.go:12-14; [ticks] of each orderBookTicks (orderbook.go:141-144). *)
Record book := mkBook { buys : list tick; sells : list tick }.

(** orderBookTicks.findPrice, orderbook.go:158-170. *)
Definition find_price (increasing : bool) (ts : list tick) (price : dec) : Z * bool :=
  let i := go_search (Z.of_nat (length ts)) (fun i =>
             let p := fst (nth (Z.to_nat i) ts (0, [])) in
             if increasing then price <=? p else p <=? price) in
  (i, (i <? Z.of_nat (length ts)) && (fst (nth (Z.to_nat i) ts (0, [])) =? price)).

(** ticks[i].addOrder(order): append to the tick at index [i] (orderbook.go:174-175, 230-232). *)
Fixpoint append_at (i : nat) (p : nat) (ts : list tick) : list tick :=
  match ts, i with
  | [], _ => []
  | (pr, ps) :: t, O => (pr, ps ++ [p]) :: t
  | x :: t, S k => x :: append_at k p t
  end.

(** orderBookTicks.addOrder, orderbook.go:172-185. *)
Definition ticks_add (increasing : bool) (ts : list tick) (price : dec) (p : nat) : list tick :=
  let '(i, exact) := find_price increasing ts price in
  if exact then append_at (Z.to_nat i) p ts else insert_at (Z.to_nat i) (price, [p]) ts.

(** OrderBook.AddOrder for one order, orderbook.go:27-38. *)
Definition add_order (h : heap) (ob : book) (p : nat) : book :=
  let o := get h p in
  if 0 <? matchable_amount o (o_price o) then
    match o_dir o with
    | Buy => mkBook (ticks_add false (buys ob) (o_price o) p) (sells ob)
    | Sell => mkBook (buys ob) (ticks_add true (sells ob) (o_price o) p)
    end
  else ob.

(** NewOrderBook, orderbook.go:17-24: adds the orders of the heap, in order. *)
Definition new_order_book (h : heap) : book :=
  fold_left (add_order h) (seq 0 (length h)) (mkBook [] []).

(** OrderBook.Orders, orderbook.go:41-47. *)
Definition book_orders (ob : book) : list nat := flat_map snd (buys ob ++ sells ob).

(** orderBookTicks.highestPrice / lowestPrice, orderbook.go:195-215. *)
Definition first_price (ts : list tick) : option dec :=
  match ts with [] => None | t :: _ => Some (fst t) end.
Definition last_tick_price (ts : list tick) : option dec :=
  match ts with [] => None | t :: r => Some (fst (last r t)) end.
Definition buys_highest (ob : book) := first_price (buys ob).
Definition buys_lowest (ob : book) := last_tick_price (buys ob).
Definition sells_highest (ob : book) := last_tick_price (sells ob).
Definition sells_lowest (ob : book) := first_price (sells ob).

(** OrderBook.HighestPrice, orderbook.go:61-74. *)
Definition book_highest_price (ob : book) : option dec :=
  match buys_highest ob, sells_highest ob with
  | Some b, Some s => Some (Z.max b s)
  | Some b, None => Some b
  | None, Some s => Some s
  | None, None => None
  end.
(** OrderBook.LowestPrice, orderbook.go:76-89. *)
Definition book_lowest_price (ob : book) : option dec :=
  match buys_lowest ob, sells_lowest ob with
  | Some b, Some s => Some (Z.min b s)
  | Some b, None => Some b
  | None, Some s => Some s
  | None, None => None
  end.

(** ** view.go *)

(** amtAccSum, view.go:178-181: price and accumulated amount. *)
Definition acc_sums := list (dec * Z).
Record view := mkView { v_buys : acc_sums; v_sells : acc_sums }.

(** OrderBook.MakeView, view.go:26-56. *)
Fixpoint acc_ticks (h : heap) (acc : Z) (ts : list tick) : acc_sums :=
  match ts with
  | [] => []
  | (p, ps) :: t => let s := acc + total_matchable h ps p in (p, s) :: acc_ticks h s t
  end.
Definition make_view (h : heap) (ob : book) : view :=
  mkView (acc_ticks h 0 (buys ob)) (acc_ticks h 0 (sells ob)).

(** Indexing and length of accumulated sums, view.go:26-176. *)
Definition nth_acc (l : acc_sums) (i : Z) : dec * Z := nth (Z.to_nat i) l (0, 0).
Definition lenZ {A} (l : list A) : Z := Z.of_nat (length l).

(** HighestBuyPrice / LowestSellPrice, view.go:96-120. *)
Definition first_positive (l : acc_sums) : option dec :=
  let i := go_search (lenZ l) (fun i => 0 <? snd (nth_acc l i)) in
  if lenZ l <=? i then None else Some (fst (nth_acc l i)).
Definition view_highest_buy (v : view) := first_positive (v_buys v).
Definition view_lowest_sell (v : view) := first_positive (v_sells v).

(** BuyAmountOver, view.go:122-134. *)
Definition view_buy_over (v : view) (price : dec) (incl : bool) : Z :=
  let i := go_search (lenZ (v_buys v)) (fun i =>
             let p := fst (nth_acc (v_buys v) i) in if incl then p <? price else p <=? price) in
  if i =? 0 then 0 else snd (nth_acc (v_buys v) (i - 1)).
(** SellAmountUnder, view.go:150-162. *)
Definition view_sell_under (v : view) (price : dec) (incl : bool) : Z :=
  let i := go_search (lenZ (v_sells v)) (fun i =>
             let p := fst (nth_acc (v_sells v) i) in if incl then price <? p else price <=? p) in
  if i =? 0 then 0 else snd (nth_acc (v_sells v) (i - 1)).
(** BuyAmountUnder, view.go:136-148 (panics on an empty side in the code; here 0). *)
Definition view_buy_under (v : view) (price : dec) (incl : bool) : Z :=
  let l := v_buys v in
  let i := go_search (lenZ l) (fun i =>
             let p := fst (nth_acc l i) in if incl then p <=? price else p <? price) in
  let tot := snd (nth_acc l (lenZ l - 1)) in
  if i =? 0 then tot else tot - snd (nth_acc l (i - 1)).
(** SellAmountOver, view.go:164-176 (panics on an empty side in the code; here 0). *)
Definition view_sell_over (v : view) (price : dec) (incl : bool) : Z :=
  let l := v_sells v in
  let i := go_search (lenZ l) (fun i =>
             let p := fst (nth_acc l i) in if incl then price <=? p else price <? p) in
  let tot := snd (nth_acc l (lenZ l - 1)) in
  if i =? 0 then tot else tot - snd (nth_acc l (i - 1)).

(** OrderView interface, view.go:15-20: what FindMatchPrice needs. *)
Record order_view := mkOV {
  ov_highest_buy : option dec;
  ov_lowest_sell : option dec;
  ov_buy_over : dec -> bool -> Z;
  ov_sell_under : dec -> bool -> Z }.

(** An order book view seen through the OrderView interface, view.go:15-20, 96-162. *)
Definition ov_of_view (v : view) : order_view :=
  mkOV (view_highest_buy v) (view_lowest_sell v) (view_buy_over v) (view_sell_under v).

(** MultipleOrderViews, view.go:183-221. *)
Definition opt_better (gt : dec -> dec -> bool) (acc : option dec) (x : option dec) : option dec :=
  match x with
  | None => acc
  | Some p => match acc with None => Some p | Some a => if gt p a then Some p else Some a end
  end.
Definition multi_view (vs : list order_view) : order_view :=
  mkOV (fold_left (fun acc v => opt_better Z.gtb acc (ov_highest_buy v)) vs None)
       (fold_left (fun acc v => opt_better Z.ltb acc (ov_lowest_sell v)) vs None)
       (fun p incl => fold_left (fun acc v => acc + ov_buy_over v p incl) vs 0)
       (fun p incl => fold_left (fun acc v => acc + ov_sell_under v p incl) vs 0).

(** ** match.go *)

(** The mutation performed by FillOrder, match.go:37-50. *)
Definition fill_paid (o : order) (amt : Z) (price : dec) : Z :=
  match o_dir o with Buy => dtrunc (dceil (dmul_int price amt)) | Sell => amt end.
Definition fill_recv (o : order) (amt : Z) (price : dec) : Z :=
  match o_dir o with Buy => amt | Sell => dtrunc (dmul_int price amt) end.
Definition fill_diff (o : order) (amt : Z) (price : dec) : Z :=
  match o_dir o with Buy => fill_paid o amt price | Sell => - fill_recv o amt price end.
Definition filled (o : order) (amt : Z) (price : dec) : order :=
  mkOrder (o_dir o) (o_price o) (o_amt o) (o_offer o)
          (o_open o - amt) (o_paid o + fill_paid o amt price) (o_recv o + fill_recv o amt price)
          (o_batch o) (o_kind o).

(** FillOrder, match.go:32-52; [None] is the panic of match.go:34-36. *)
Definition fill_order (h : heap) (p : nat) (amt : Z) (price : dec) : option (heap * Z) :=
  let o := get h p in
  if matchable_amount o price <? amt then None
  else Some (upd h p (filled o amt price), fill_diff o amt price).

(** FulfillOrder, match.go:55-62. *)
Definition fulfill_order (h : heap) (p : nat) (price : dec) : option (heap * Z) :=
  let m := matchable_amount (get h p) price in
  if 0 <? m then fill_order h p m price else Some (h, 0).

(** FulfillOrders, match.go:66-72. *)
Fixpoint fulfill_orders (h : heap) (ps : list nat) (price : dec) : option (heap * Z) :=
  match ps with
  | [] => Some (h, 0)
  | p :: t =>
      match fulfill_order h p price with
      | None => None
      | Some (h1, d1) =>
          match fulfill_orders h1 t price with
          | None => None
          | Some (h2, d2) => Some (h2, d1 + d2)
          end
      end
  end.

(** FindMatchPrice, match.go:74-107. *)
Definition find_match_price (ov : order_view) (prec : Z) : option dec :=
  match ov_highest_buy ov, ov_lowest_sell ov with
  | Some hb, Some ls =>
      if hb <? ls then None
      else
        let lo := tick_to_index (lowest_tick prec) prec in
        let hi := tick_to_index (highest_tick prec) prec in
        match find_first_true lo hi (fun i =>
                let s := ov_sell_under ov (tick_from_index i prec) true in
                (0 <? s) && (ov_buy_over ov (tick_from_index (i + 1) prec) true <=? s)) with
        | None => None
        | Some i =>
            match find_first_true hi lo (fun i =>
                    let b := ov_buy_over ov (tick_from_index i prec) true in
                    (0 <? b) && (ov_sell_under ov (tick_from_index (i - 1) prec) true <=? b)) with
            | None => None
            | Some j =>
                let mid := dquo_int (tick_from_index i prec + tick_from_index j prec) 2 in
                Some (round_price mid prec)
            end
        end
  | _, _ => None
  end.

(** buildSide, match.go:118-130: the prefix of ticks acceptable at the match price.  The model
    keeps the prefix in reverse order (the code indexes it from its end with [side.i]) together
    with its total matchable amount. *)
Fixpoint side_prefix (increasing : bool) (match_price : dec) (ts : list tick) : list tick :=
  match ts with
  | [] => []
  | t :: r =>
      if (increasing && (match_price <? fst t)) || (negb increasing && (fst t <? match_price)) then []
      else t :: side_prefix increasing match_price r
  end.
Definition side_total (h : heap) (match_price : dec) (ts : list tick) : Z :=
  fold_left (fun acc t => acc + total_matchable h (snd t) match_price) ts 0.

(** One direction of the loop body, match.go:147-168.  [st] is the side (reversed prefix), [tot]
    its total, [other] the other side's total.  Result: [None] = return not found; otherwise the
    new side, new total, the computed matchableAmt and whether a tick was dropped. *)
Definition side_step (h : heap) (mp : dec) (is_sell : bool) (st : list tick) (tot other : Z)
  : option (list tick * Z * Z * bool) :=
  match st with
  | [] => None
  | t :: r =>
      let tick_amt := total_matchable h (snd t) mp in
      let m := Z.min tot other in
      let others := tot - tick_amt in
      let partial := m - others in
      if (m <=? others) || (is_sell && (dtrunc (dmul_int mp partial) =? 0)) then
        match r with
        | [] => None
        | _ => Some (r, tot - tick_amt, m, true)
        end
      else Some (st, tot, m, false)
  end.

(** The loop of FindMatchableAmountAtSinglePrice, match.go:145-172. [None] = out of fuel. *)
Fixpoint single_loop (fuel : nat) (h : heap) (mp : dec) (bst sst : list tick) (bt stt : Z)
  : option (option Z) :=
  match fuel with
  | O => None
  | S k =>
      match side_step h mp false bst bt stt with
      | None => Some None
      | Some (bst', bt', _, bd) =>
          match side_step h mp true sst stt bt' with
          | None => Some None
          | Some (sst', stt', m, sd) =>
              if negb bd && negb sd then Some (Some m)
              else single_loop k h mp bst' sst' bt' stt'
          end
      end
  end.

(** FindMatchableAmountAtSinglePrice, match.go:111-173. *)
Definition find_matchable_single (h : heap) (ob : book) (mp : dec) : option (option Z) :=
  let bs := side_prefix false mp (buys ob) in
  let ss := side_prefix true mp (sells ob) in
  match bs, ss with
  | [], _ => Some None
  | _, [] => Some None
  | _, _ => single_loop (S (length bs + length ss)) h mp (rev bs) (rev ss)
              (side_total h mp bs) (side_total h mp ss)
  end.

(** First loop of DistributeOrderAmountToOrders, match.go:342-354: the entry of
    matchedAmtByOrder for one order, [None] when absent. *)
Definition first_share (h : heap) (price : dec) (amt total : Z) (p : nat) : option Z :=
  let m := matchable_amount (get h p) price in
  if m =? 0 then None
  else
    let proportion := dquo_trunc (of_int (o_amt (get h p))) (of_int total) in
    let matched := Z.min m (dtrunc (dmul_int proportion amt)) in
    if 0 <? matched then Some matched else None.

Definition opt_or0 (o : option Z) : Z := match o with Some z => z | None => 0 end.

(** Second loop, match.go:356-369. *)
Fixpoint second_share (h : heap) (price : dec) (remaining : Z) (l : list (nat * option Z))
  : list (nat * option Z) :=
  match l with
  | [] => []
  | (p, m) :: t =>
      if remaining =? 0 then l
      else
        let prev := opt_or0 m in
        let add := Z.min remaining (matchable_amount (get h p) price - prev) in
        (p, Some (prev + add)) :: second_share h price (remaining - add) t
  end.

(** The condition of match.go:377. *)
Definition share_ok (h : heap) (price : dec) (pm : nat * option Z) : bool :=
  let m := opt_or0 (snd pm) in
  negb (m =? 0) && (is_buy (o_dir (get h (fst pm))) || (0 <? dtrunc (dmul_int price m))).

(** Final loop, match.go:392-395: fills the entries of the Go map in some order. *)
Fixpoint fill_list (h : heap) (price : dec) (l : list (nat * Z)) : option (heap * Z) :=
  match l with
  | [] => Some (h, 0)
  | (p, m) :: t =>
      match fill_order h p m price with
      | None => None
      | Some (h1, d1) =>
          match fill_list h1 price t with
          | None => None
          | Some (h2, d2) => Some (h2, d1 + d2)
          end
      end
  end.

(** DistributeOrderAmountToOrders, match.go:337-397.  [iter] is the iteration order of the Go map
    (an arbitrary permutation, runtime dependent).  Each recursive call drops at least one order;
    [fuel] is the recursion depth; outer [None] covers out-of-fuel and the FillOrder panic. *)
Fixpoint dist_orders (iter : list (nat * Z) -> list (nat * Z))
  (fuel : nat) (h : heap) (ps : list nat) (amt : Z) (price : dec) : option (heap * Z) :=
  match fuel with
  | O => None
  | S k =>
      let total := total_amount h ps in
      let l1 := map (fun p => (p, first_share h price amt total p)) ps in
      let matched_tot := fold_left (fun acc pm => acc + opt_or0 (snd pm)) l1 0 in
      let l2 := second_share h price (amt - matched_tot) l1 in
      let matched := filter (share_ok h price) l2 in
      let unmatched := filter (fun pm => negb (share_ok h price pm)) l2 in
      match unmatched with
      | _ :: _ =>
          match matched with
          | [] => dist_orders iter k h (removelast ps) amt price
          | _ => dist_orders iter k h (map fst matched) amt price
          end
      | [] => fill_list h price (iter (map (fun pm => (fst pm, opt_or0 (snd pm))) l2))
      end
  end.
Definition distribute_to_orders iter (h : heap) (ps : list nat) (amt : Z) (price : dec) :=
  dist_orders iter (S (length ps)) h ps amt price.

(** Loop of DistributeOrderAmountToTick, match.go:309-325. *)
Fixpoint dist_groups iter (h : heap) (gs : list group) (remaining : Z) (price : dec)
  : option (heap * Z) :=
  match gs with
  | [] => Some (h, 0)
  | (_, ps) :: t =>
      let open_amt := total_matchable h ps price in
      if open_amt =? 0 then dist_groups iter h t remaining price
      else if open_amt <=? remaining then
        match fulfill_orders h ps price with
        | None => None
        | Some (h1, d1) =>
            let rem' := remaining - open_amt in
            if rem' =? 0 then Some (h1, d1)
            else match dist_groups iter h1 t rem' price with
                 | None => None
                 | Some (h2, d2) => Some (h2, d1 + d2)
                 end
        end
      else distribute_to_orders iter h (sort_orders h ps) remaining price
  end.

(** DistributeOrderAmountToTick, match.go:305-327. *)
Definition distribute_to_tick iter (h : heap) (t : tick) (amt : Z) (price : dec) : option (heap * Z) :=
  dist_groups iter h (group_by_batch h (snd t)) amt price.

(** distributeToTicks, match.go:184-199. *)
Fixpoint distribute_to_ticks iter (h : heap) (ts : list tick) (remaining : Z) (mp : dec)
  : option (heap * Z) :=
  match ts with
  | [] => Some (h, 0)
  | t :: r =>
      let tick_amt := total_matchable h (snd t) mp in
      if tick_amt <=? remaining then
        match fulfill_orders h (snd t) mp with
        | None => None
        | Some (h1, d1) =>
            let rem' := remaining - tick_amt in
            if rem' =? 0 then Some (h1, d1)
            else match distribute_to_ticks iter h1 r rem' mp with
                 | None => None
                 | Some (h2, d2) => Some (h2, d1 + d2)
                 end
        end
      else distribute_to_tick iter h t remaining mp
  end.

(** Result of a match: heap, quoteCoinDiff, and whether anything matched.  Outer [None]: panic or
    out of fuel.  MatchAtSinglePrice, match.go:178-204; inner [None] is matched=false. *)
Definition match_single iter (h : heap) (ob : book) (mp : dec) : option (option (heap * Z)) :=
  match find_matchable_single h ob mp with
  | None => None
  | Some None => Some None
  | Some (Some m) =>
      match distribute_to_ticks iter h (buys ob) m mp with
      | None => None
      | Some (h1, d1) =>
          match distribute_to_ticks iter h1 (sells ob) m mp with
          | None => None
          | Some (h2, d2) => Some (Some (h2, d1 + d2))
          end
      end
  end.

(** PriceDirection, match.go:10-16. *)
Inductive pdir := PriceStaying | PriceIncreasing | PriceDecreasing.

(** PriceDirection, match.go:208-244: amounts strictly beyond and exactly at the last price. *)
Fixpoint beyond_at (h : heap) (increasing : bool) (last : dec) (ts : list tick) (over : Z) : Z * Z :=
  match ts with
  | [] => (over, 0)
  | (p, ps) :: r =>
      if (if increasing then last <? p else p <? last) then (over, 0)
      else
        let amt := total_matchable h ps last in
        if p =? last then (over, amt) else beyond_at h increasing last r (over + amt)
  end.
Definition price_direction (h : heap) (ob : book) (last : dec) : pdir :=
  let '(bo, ba) := beyond_at h false last (buys ob) 0 in
  let '(su, sa) := beyond_at h true last (sells ob) 0 in
  if sa + su <? bo then PriceIncreasing
  else if ba + bo <? su then PriceDecreasing
  else PriceStaying.

(** The loop of Match, match.go:262-297; indices bi, si are the remaining suffixes. *)
Fixpoint match_loop iter (fuel : nat) (d : pdir) (h : heap) (bs ss : list tick)
  (mp : dec) (qd : Z) (matched : bool) : option (heap * dec * Z * bool) :=
  match fuel with
  | O => None
  | S k =>
      match bs, ss with
      | bt :: br, st :: sr =>
          if fst st <=? fst bt then
            let p := match d with PriceIncreasing => fst st | _ => fst bt end in
            let bo := total_matchable h (snd bt) p in
            let so := total_matchable h (snd st) p in
            if bo <=? 0 then match_loop iter k d h br ss mp qd matched
            else if so <=? 0 then match_loop iter k d h bs sr mp qd matched
            else
              match distribute_to_tick iter h bt (if bo <=? so then bo else so) p with
              | None => None
              | Some (h1, d1) =>
                  match distribute_to_tick iter h1 st (if so <=? bo then so else bo) p with
                  | None => None
                  | Some (h2, d2) =>
                      match_loop iter k d h2 (if bo <=? so then br else bs)
                        (if so <=? bo then sr else ss) p (qd + d1 + d2) true
                  end
              end
          else Some (h, mp, qd, matched)
      | _, _ => Some (h, mp, qd, matched)
      end
  end.

(** Match, match.go:249-299.  Result: heap, matchPrice, quoteCoinDiff, matched (the price and the
    difference are meaningful only when matched). *)
Definition match_book iter (h : heap) (ob : book) (last : dec) : option (heap * dec * Z * bool) :=
  match buys ob, sells ob with
  | [], _ => Some (h, last, 0, false)
  | _, [] => Some (h, last, 0, false)
  | _, _ =>
      let d := price_direction h ob last in
      match match_single iter h ob last with
      | None => None
      | Some r =>
          let '(h1, qd, matched) := match r with Some (h1, q) => (h1, q, true) | None => (h, 0, false) end in
          match d with
          | PriceStaying => Some (h1, last, qd, matched)
          | _ => match_loop iter (S (length (buys ob) + length (sells ob))) d h1
                   (buys ob) (sells ob) last qd matched
          end
      end
  end.
