(** Model of the order book query: OrderBookView.Match (x/dex/amm/view.go) and x/dex/types/orderbook.go.
    Simplifications: unbounded decimals (a price unit above 2^256 panics in the code); the loops take a
    step bound [fuel] and return None when it runs out (the code has no bound; see the termination theorem);
    the pool amount of a row is the constant 0 and left out. *)
From Verif Require Import Base Dec TickModel OrderModel MatchModel.

(** the two loops at the end of Match, view.go:80-93: sums before index [k] become 0, the others lose [m] *)
Fixpoint sub_sums (k m : Z) (l : acc_sums) : acc_sums :=
  match l with
  | [] => []
  | (p, s) :: t => (p, if 0 <? k then 0 else s - m) :: sub_sums (k - 1) m t
  end.

(** OrderBookView.Match, view.go:58-94 *)
Definition view_match (v : view) : view :=
  let nb := lenZ (v_buys v) in
  let ns := lenZ (v_sells v) in
  if (nb =? 0) || (ns =? 0) then v else
  let bi := go_search nb (fun i => let p := fst (nth_acc (v_buys v) i) in view_sell_under v p true <? view_buy_over v p true) in
  let si := go_search ns (fun i => let p := fst (nth_acc (v_sells v) i) in view_buy_over v p true <? view_sell_under v p true) in
  if (bi =? nb) && (si =? ns) then v else
  let m0 := if 0 <? bi then snd (nth_acc (v_buys v) (bi - 1)) else 0 in
  let m := if 0 <? si then Z.max m0 (snd (nth_acc (v_sells v) (si - 1))) else m0 in
  mkView (sub_sums bi m (v_buys v)) (sub_sums si m (v_sells v)).

(** OrderBookBasePrice, orderbook.go:12-26 *)
Definition base_price (v : view) (prec : Z) : option dec :=
  match view_highest_buy v, view_lowest_sell v with
  | Some hb, Some ls => Some (round_price (Z.quot (hb + ls) 2) prec)
  | Some hb, None => Some hb
  | None, Some ls => Some ls
  | None, None => None
  end.

(** the price whose tick gap is the smallest unit, orderbook.go:53-74; [n] = lowestPriceUnitMaxNumTicks - i *)
Fixpoint unit_loop (fuel : nat) (v : view) (hi : dec) (prec n : Z) (cur : dec) : option dec :=
  match fuel with
  | O => None
  | S f =>
      if (0 <? n) && (cur <=? hi) then
        let incl := view_sell_over v cur true in
        let excl := view_sell_over v cur false in
        let n' := if 0 <? incl - excl then n - 1 else n in
        if n' =? 0 then Some cur
        else if excl <=? 0 then Some cur
        else unit_loop f v hi prec n' (up_tick cur prec)
      else Some cur
  end.

(** FitPriceToTickGap, orderbook.go:154-162 *)
Definition fit_price (price gap : dec) (down : bool) : dec :=
  let tick := Z.quot price gap * gap in
  if negb down && negb (tick =? price) then tick + gap else tick.

(** the rows, orderbook.go:87-105 and 112-130; [n] = MaxNumTicks - j *)
Fixpoint sell_rows (fuel : nat) (v : view) (hi u n cur : Z) (acc : Z) : option (list (dec * Z)) :=
  match fuel with
  | O => None
  | S f =>
      if (0 <? n) && (cur <=? hi) then
        let amt := view_sell_under v cur true - acc in
        let last := negb (0 <? view_sell_over v cur false) in
        if 0 <? amt then
          if last then Some [(cur, amt)]
          else option_map (cons (cur, amt)) (sell_rows f v hi u (n - 1) (cur + u) (acc + amt))
        else if last then Some [] else sell_rows f v hi u n (cur + u) acc
      else Some []
  end.
Fixpoint buy_rows (fuel : nat) (v : view) (lo u n cur : Z) (acc : Z) : option (list (dec * Z)) :=
  match fuel with
  | O => None
  | S f =>
      if (0 <? n) && (lo <=? cur) && (0 <=? cur) then
        let amt := view_buy_over v cur true - acc in
        let last := negb (0 <? view_buy_under v cur false) in
        if 0 <? amt then
          if last then Some [(cur, amt)]
          else option_map (cons (cur, amt)) (buy_rows f v lo u (n - 1) (cur - u) (acc + amt))
        else if last then Some [] else buy_rows f v lo u n (cur - u) acc
      else Some []
  end.

(** OrderBookConfig, orderbook.go:29-32 *)
Record config := mkConfig { cf_power : Z; cf_rows : Z }.
(** OrderBookResponse, OrderBookPairResponse *)
Record display := mkDisplay { ds_unit : dec; ds_buys : list (dec * Z); ds_sells : list (dec * Z) }.
Record response := mkResponse { rs_base : option dec; rs_books : list display }.

(** sort.Slice by power, orderbook.go:45-47 *)
Fixpoint insert_config (c : config) (l : list config) : list config :=
  match l with [] => [c] | d :: t => if cf_power c <=? cf_power d then c :: l else d :: insert_config c t end.
Definition sort_configs (l : list config) : list config := fold_right insert_config [] l.

(** one book, orderbook.go:76-133 *)
Definition make_display (fuel : nat) (v : view) (lo hi : dec) (small : dec) (c : config) : option display :=
  let u := small * 10 ^ Z.max 0 (cf_power c) in
  let sells := match view_lowest_sell v with
               | Some ls => option_map (@rev _) (sell_rows fuel v hi u (cf_rows c) (fit_price ls u false) 0)
               | None => Some [] end in
  let buys := match view_highest_buy v with
              | Some hb => buy_rows fuel v lo u (cf_rows c) (fit_price hb u true) 0
              | None => Some [] end in
  match sells, buys with Some s, Some b => Some (mkDisplay u b s) | _, _ => None end.
Fixpoint make_displays (fuel : nat) (v : view) (lo hi small : dec) (cs : list config) : option (list display) :=
  match cs with
  | [] => Some []
  | c :: t => match make_display fuel v lo hi small c, make_displays fuel v lo hi small t with Some d, Some r => Some (d :: r) | _, _ => None end
  end.

(** MakeOrderBookPairResponse, orderbook.go:34-136; the caller passes at least one config (an empty
    list panics in the code and is None here) *)
Definition make_response (fuel : nat) (v : view) (lo hi : dec) (prec : Z) (configs : list config) : option response :=
  match base_price v prec with
  | None => Some (mkResponse None [])
  | Some base =>
      let cs := sort_configs configs in
      match cs with
      | [] => None
      | c0 :: _ =>
          let small :=
            match view_lowest_sell v with
            | Some ls => option_map (fun p => tick_gap p prec) (unit_loop fuel v hi prec (cf_rows c0) ls)
            | None => option_map (fun p => tick_gap p prec) (view_highest_buy v)
            end in
          match small with
          | None => None
          | Some g => match make_displays fuel v lo hi g cs with Some l => Some (mkResponse (Some base) l) | None => None end
          end
      end
  end.

(** the query for one pair once the orders are collected, keeper/grpc_query.go:540-576: book, view, match, response *)
Definition query_book (fuel : nat) (h : heap) (lo hi : dec) (prec : Z) (configs : list config) : option response :=
  make_response fuel (view_match (make_view h (new_order_book h))) lo hi prec configs.
