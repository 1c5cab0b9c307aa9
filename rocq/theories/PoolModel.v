(** Model of /repo/x/dex/amm/pool.go, pool part of amm.go and util.go.  Every arithmetic operation
    is the overflow checked one, because the code recovers from panics in this file. *)
From Verif Require Import Base Dec TickModel OrderModel MatchModel.

(** amm.go:6-15. *)
Definition min_coin_amount : Z := 100.
Definition max_coin_amount : Z := 10 ^ 40.
Definition min_pool_price : dec := 1000.
Definition max_pool_price : dec := 10 ^ 38.
Definition min_gap_ratio : dec := 1000000000000000.

(** BasicPool, pool.go:36-43; RangedPool, pool.go:205-211.  xComp and yComp are rx+transX and
    ry+transY at every point where the code sets them (pool.go:224-225, 309-310). *)
Inductive pool :=
| Basic (rx ry ps : Z)
| Ranged (rx ry ps : Z) (minp maxp tx ty : dec).

Definition p_rx (p : pool) : Z := match p with Basic rx _ _ => rx | Ranged rx _ _ _ _ _ _ => rx end.
Definition p_ry (p : pool) : Z := match p with Basic _ ry _ => ry | Ranged _ ry _ _ _ _ _ => ry end.
(** PoolCoinSupply, pool.go:80-82, 314-316. *)
Definition p_ps (p : pool) : Z := match p with Basic _ _ ps => ps | Ranged _ _ ps _ _ _ _ => ps end.

(** DeriveTranslation, pool.go:534-584.  A nil sqrtK (possible only when sqrtP equals both ends) is
    dereferenced at pool.go:564, a runtime panic. *)
Definition derive_translation (rx ry : Z) (minp maxp : dec) : res (dec * dec) :=
  let rxd := of_int rx in
  let ryd := of_int ry in
  let sm := dsqrt minp in
  let sl := dsqrt maxp in
  let! sp :=
    (if rxd =? 0 then Ok sm
     else if ryd =? 0 then Ok sl
     else
       let! q := c_quo rxd ryd in
       if q =? 0 then Ok sm
       else
         let! q' := c_quo ryd rxd in
         if q' =? 0 then Ok sl
         else
           let sxy := dsqrt q in
           let! a1 := c_quo sm sxy in
           let! a2 := c_quo sxy sl in
           let! alpha := c_sub a1 a2 in
           let! a' := c_mul alpha alpha in
           let! a'' := c_mul a' one_dec in
           let! s4 := c_add a'' (4 * P18) in
           let! s := c_add alpha (dsqrt s4) in
           c_mul (dquo_int s 2) sxy) in
  let! k1 := (if sp =? sm then Ok None
              else let! d := c_sub sp sm in let! k := c_quo rxd d in Ok (Some k)) in
  let! k := (if sp =? sl then Ok k1
             else
               let! i1 := c_quo one_dec sp in
               let! i2 := c_quo one_dec sl in
               let! d := c_sub i1 i2 in
               let! k2 := c_quo ryd d in
               match k1 with
               | None => Ok (Some k2)
               | Some k =>
                   let! p := c_mul sp sp in
                   let! p := c_mul p one_dec in
                   let! km := c_mul k sm in
                   let! n1 := c_add rxd km in
                   let! kl := c_quo k sl in
                   let! d1 := c_add ryd kl in
                   let! p1 := c_quo n1 d1 in
                   let! k2m := c_mul k2 sm in
                   let! n2 := c_add rxd k2m in
                   let! k2l := c_quo k2 sl in
                   let! d2 := c_add ryd k2l in
                   let! p2 := c_quo n2 d2 in
                   let! e1 := c_sub p p1 in
                   let! e2 := c_sub p p2 in
                   if Z.abs e2 <? Z.abs e1 then Ok (Some k2) else Ok (Some k)
               end) in
  match k with
  | None => Panic
  | Some k =>
      let! tx := c_mul k sm in
      let! ty := c_quo k sl in
      Ok (tx, ty)
  end.

(** SetBalances, pool.go:74-77, 303-311. *)
Definition set_balances (p : pool) (rx ry : Z) (derive : bool) : res pool :=
  match p with
  | Basic _ _ ps => Ok (Basic rx ry ps)
  | Ranged _ _ ps minp maxp tx ty =>
      let! t := (if derive then derive_translation rx ry minp maxp else Ok (tx, ty)) in
      let! _ := c_add (of_int rx) (fst t) in
      let! _ := c_add (of_int ry) (snd t) in
      Ok (Ranged rx ry ps minp maxp (fst t) (snd t))
  end.

(** NewRangedPool, pool.go:214-227. *)
Definition new_ranged_pool (rx ry ps : Z) (minp maxp : dec) : res pool :=
  set_balances (Ranged rx ry ps minp maxp 0 0) rx ry true.

(** Price, pool.go:85-90, 331-336. *)
Definition pool_price (p : pool) : res dec :=
  match p with
  | Basic rx ry _ =>
      if (rx =? 0) || (ry =? 0) then Panic else c_quo (of_int rx) (of_int ry)
  | Ranged rx ry _ _ _ tx ty =>
      if (rx =? 0) && (ry =? 0) then Panic else c_quo (of_int rx + tx) (of_int ry + ty)
  end.

(** IsDepleted, pool.go:93-95, 339-341. *)
Definition is_depleted (p : pool) : bool :=
  match p with
  | Basic rx ry ps => (ps =? 0) || (rx =? 0) || (ry =? 0)
  | Ranged rx ry ps _ _ _ _ => (ps =? 0) || ((rx =? 0) && (ry =? 0))
  end.

(** The SafeMath block shared by BuyAmountOver and BuyAmountTo, pool.go:126-133, 169-176,
    374-381, 426-433: floor(dx/price) capped by MaxCoinAmount, MaxCoinAmount on overflow. *)
Definition capped_quo (dx price : dec) : res Z :=
  safe_math
    (let! q := c_quo_trunc dx price in
     let! a := c_trunc q in
     Ok (if max_coin_amount <? a then max_coin_amount else a))
    max_coin_amount.

(** BuyAmountOver, pool.go:114-135, 359-383. *)
Definition buy_amount_over (p : pool) (price : dec) : res Z :=
  match p with
  | Basic rx ry _ =>
      let price' := if price <? min_pool_price then min_pool_price else price in
      let! pp := pool_price p in
      if pp <=? price' then Ok 0
      else
        let! m := c_mul_int price' ry in
        let! dx := c_sub (of_int rx) m in
        if dx <=? 0 then Ok 0 else capped_quo dx price
  | Ranged rx ry _ minp _ tx ty =>
      let price' := if price <? minp then minp else price in
      let! pp := pool_price p in
      if pp <=? price' then Ok 0
      else
        let! m := c_mul price' (of_int ry + ty) in
        let! dx := c_sub (of_int rx + tx) m in
        if dx <=? 0 then Ok 0
        else capped_quo (if of_int rx <? dx then of_int rx else dx) price
  end.

(** SellAmountUnder, pool.go:137-149, 387-403. *)
Definition sell_amount_under (p : pool) (price : dec) : res Z :=
  match p with
  | Basic rx ry _ =>
      let price' := if max_pool_price <? price then max_pool_price else price in
      let! pp := pool_price p in
      if price' <=? pp then Ok 0
      else
        let! q := c_quo_up (of_int rx) price' in
        let! d := c_sub (of_int ry) q in
        let! a := c_trunc d in
        Ok (if a <=? 0 then 0 else a)
  | Ranged rx ry _ _ maxp tx ty =>
      let price' := if maxp <? price then maxp else price in
      let! pp := pool_price p in
      if price' <=? pp then Ok 0
      else
        let! q := c_quo_up (of_int rx + tx) price' in
        let! d := c_sub (of_int ry + ty) q in
        let! a := c_trunc d in
        let a' := if ry <? a then ry else a in
        Ok (if a' <=? 0 then 0 else a')
  end.

(** BuyAmountTo, pool.go:154-178, 408-435.  DecApproxSqrt (types/utils.go:137-143) panics only if
    ApproxSqrt overflows, which it does not for arguments that fit; this is not modelled. *)
Definition buy_amount_to (p : pool) (price : dec) : res Z :=
  match p with
  | Basic rx ry _ =>
      let price' := if price <? min_pool_price then min_pool_price else price in
      let! pp := pool_price p in
      if pp <=? price' then Ok 0
      else
        let! m := c_mul (dsqrt (of_int rx)) (dsqrt (of_int ry)) in
        let! m' := c_mul (dsqrt price') m in
        let! dx := c_sub (of_int rx) m' in
        if dx <=? 0 then Ok 0 else capped_quo dx price
  | Ranged rx ry _ minp _ tx ty =>
      let price' := if price <? minp then minp else price in
      let! pp := pool_price p in
      if pp <=? price' then Ok 0
      else
        let! m := c_mul (dsqrt (of_int rx + tx)) (dsqrt (of_int ry + ty)) in
        let! m' := c_mul (dsqrt price') m in
        let! m'' := c_sub m' tx in
        let! dx := c_sub (of_int rx) m'' in
        if dx <=? 0 then Ok 0
        else capped_quo (if of_int rx <? dx then of_int rx else dx) price
  end.

(** SellAmountTo, pool.go:183-199, 440-459. *)
Definition sell_amount_to (p : pool) (price : dec) : res Z :=
  match p with
  | Basic rx ry _ =>
      let price' := if max_pool_price <? price then max_pool_price else price in
      let! pp := pool_price p in
      if price' <=? pp then Ok 0
      else
        let! m := c_mul (dsqrt (of_int rx)) (dsqrt (of_int ry)) in
        let! q := c_quo m (dsqrt price') in
        let! d := c_sub (of_int ry) q in
        let! a := c_trunc d in
        Ok (if a <=? 0 then 0 else a)
  | Ranged rx ry _ _ maxp tx ty =>
      let price' := if maxp <? price then maxp else price in
      let! pp := pool_price p in
      if price' <=? pp then Ok 0
      else
        let! m := c_mul (dsqrt (of_int rx + tx)) (dsqrt (of_int ry + ty)) in
        let! q := c_quo_up m (dsqrt price') in
        let! q' := c_sub q ty in
        let! d := c_sub (of_int ry) q' in
        let! a := c_trunc d in
        let a' := if ry <? a then ry else a in
        Ok (if a' <=? 0 then 0 else a')
  end.

(** InitialPoolCoinSupply, pool.go:675-682. *)
Definition initial_pool_coin_supply (x y : Z) : Z :=
  let cx := ndigits x - 1 in
  let cy := ndigits y - 1 in
  let c := Z.quot ((cx + 1) + (cy + 1) + 1) 2 in
  10 ^ c.

(** CreateBasicPool, pool.go:55-67.  [Ok None] is a returned error. *)
Definition create_basic_pool (rx ry : Z) : res (option pool) :=
  if (rx =? 0) || (ry =? 0) then Ok None
  else
    let! p := c_quo (of_int rx) (of_int ry) in
    if p <? min_pool_price then Ok None
    else if max_pool_price <? p then Ok None
    else Ok (Some (Basic rx ry (initial_pool_coin_supply rx ry))).

(** ValidateRangedPoolParams, pool.go:268-294: [Ok true] = no error. *)
Definition validate_ranged_pool_params (minp maxp initp : dec) : res bool :=
  if initp <=? 0 then Ok false
  else if minp <? min_pool_price then Ok false
  else if maxp <=? 0 then Ok false
  else if max_pool_price <? maxp then Ok false
  else if maxp <=? minp then Ok false
  else
    let! g := c_quo (maxp - minp) minp in
    if g <? min_gap_ratio then Ok false
    else if initp <? minp then Ok false
    else if maxp <? initp then Ok false
    else Ok true.

(** CreateRangedPool, pool.go:231-266. *)
Definition create_ranged_pool (x y : Z) (minp maxp initp : dec) : res (option pool) :=
  if (x <=? 0) && (y <=? 0) then Ok None
  else
    let! valid := validate_ranged_pool_params minp maxp initp in
    if negb valid then Ok None
    else
      let! a :=
        (if initp =? minp then Ok (0, y)
         else if initp =? maxp then Ok (x, 0)
         else
           let sp := dsqrt initp in
           let sm := dsqrt minp in
           let sl := dsqrt maxp in
           let! d := c_sub sp sm in
           let! q := c_quo (of_int x) d in
           let! ip := c_quo one_dec sp in
           let! il := c_quo one_dec sl in
           let! e := c_sub ip il in
           let! m := c_mul q e in
           let! ay := chk_int (dtrunc (dceil m)) in
           if y <? ay then
             let! q' := c_quo (of_int y) e in
             let! m' := c_mul q' d in
             let! ax := chk_int (dtrunc (dceil m')) in
             Ok (ax, y)
           else Ok (x, ay)) in
      let! p := new_ranged_pool (fst a) (snd a) (initial_pool_coin_supply (fst a) (snd a)) minp maxp in
      Ok (Some p).

(** Deposit, pool.go:477-509. *)
Definition deposit (rx ry ps x y : Z) : res (Z * Z * Z) :=
  safe_math
    (let rxd := of_int rx in
     let ryd := of_int ry in
     let psd := of_int ps in
     let! ratio :=
       (if rxd =? 0 then c_quo_trunc (of_int y) ryd
        else if ryd =? 0 then c_quo_trunc (of_int x) rxd
        else
          let! qx := c_quo_trunc (of_int x) rxd in
          let! qy := c_quo_trunc (of_int y) ryd in
          Ok (Z.min qx qy)) in
     let! m := c_mul_trunc psd ratio in
     let! pc := c_trunc m in
     let! mint := c_quo (of_int pc) psd in
     let! ax := (let! t := c_mul rxd mint in chk_int (dtrunc (dceil t))) in
     let! ay := (let! t := c_mul ryd mint in chk_int (dtrunc (dceil t))) in
     Ok (ax, ay, pc))
    (0, 0, 0).

(** Withdraw, pool.go:514-532. *)
Definition withdraw (rx ry ps pc : Z) (fee : dec) : res (Z * Z) :=
  if pc =? ps then Ok (rx, ry)
  else
    safe_math
      (let! proportion := c_quo_trunc (of_int pc) (of_int ps) in
       let! multiplier := c_sub one_dec fee in
       let! x1 := c_mul_trunc (of_int rx) proportion in
       let! x2 := c_mul_trunc x1 multiplier in
       let! x := c_trunc x2 in
       let! y1 := c_mul_trunc (of_int ry) proportion in
       let! y2 := c_mul_trunc y1 multiplier in
       let! y := c_trunc y2 in
       Ok (x, y))
      (0, 0).

(** poolOrderPriceGapRatio, util.go:148-163, with the constants of util.go:135-146. *)
Definition pool_order_price_gap_ratio (pool_price cur_price : dec) : res dec :=
  let pp := if pool_price =? 0 then 1 else pool_price in
  let! d := c_sub cur_price pp in
  let! x := c_quo (Z.abs d) pp in
  if x <=? 10000000000000000 then Ok (dmul 7000000000000000 x + 30000000000000)
  else if x <=? 20000000000000000 then Ok (dmul 90000000000000000 x + -800000000000000)
  else if x <=? 100000000000000000 then Ok (dmul 50000000000000000 x)
  else Ok 5000000000000000.

(** ** Unbounded loops.  A Go [for] without a static bound is a step function iterated until it
    returns [inr]; [iter_until n] performs at most 2^n steps.  [inl] at the end = not finished. *)
Fixpoint iter_until {S R : Type} (n : nat) (step : S -> S + R) (s : S) : S + R :=
  match n with
  | O => step s
  | Datatypes.S k =>
      match iter_until k step s with
      | inl s' => iter_until k step s'
      | inr r => inr r
      end
  end.

(** 2^400 iterations are enough for every price and amount that fits, see PoolOrderProofs. *)
Definition loop_bits : nat := 400.

(** Orders emitted so far: price and amount, oldest first. *)
Definition porders := list (dec * Z).

(** placeOrder of PoolBuyOrders, pool.go:603-609.  The orderer computes the offer coin
    (types/order.go, order.go:44-46), so MulInt/Ceil/TruncateInt happen in any case. *)
Definition place_buy (p : pool) (price : dec) (amt : Z) (derive : bool) : res pool :=
  let! m := c_mul_int price amt in
  let! paid := chk_int (dtrunc (dceil m)) in
  let! rx := i_sub (p_rx p) paid in
  let! ry := i_add (p_ry p) amt in
  set_balances p rx ry derive.

(** Loop body of PoolBuyOrders, pool.go:617-629; [inr None] = a panic (recovered, orders = nil). *)
Definition buy_step (pp lowest : dec) (prec : Z) (s : dec * pool * porders)
  : (dec * pool * porders) + option porders :=
  let '(tick, p, os) := s in
  if tick <? lowest then inr (Some os)
  else
    match buy_amount_over p tick with
    | Ok amt =>
        if amt <? min_coin_amount then (if tick =? 0 then inr None else inl (down_tick tick prec, p, os))
        else
          match place_buy p tick amt false with
          | Ok p' =>
              let os' := os ++ [(tick, amt)] in
              if p_rx p' <=? 0 then inr (Some os')
              else
                match (let! g := pool_order_price_gap_ratio pp tick in
                       let! t := c_mul tick (one_dec - g) in
                       price_to_down_tick_chk t prec) with
                | Ok tick' => inl (tick', p', os')
                | _ => inr None
                end
          | _ => inr None
          end
    | _ => inr None
    end.

(** PoolBuyOrders before the loop, pool.go:598-616. *)
Definition buy_start (p : pool) (lowest highest : dec) (prec : Z) : res (option (dec * pool * porders)) :=
  let! pp := pool_price p in
  if pp <=? lowest then Ok None
  else
    let! (p1, os) :=
      (if highest <? pp then
         let! amt := buy_amount_to p highest in
         if min_coin_amount <=? amt then
           let! p' := place_buy p highest amt true in Ok (p', [(highest, amt)])
         else Ok (p, [])
       else Ok (p, [])) in
    let! pp1 := pool_price p1 in
    let! tick := price_to_down_tick_chk (Z.min highest pp1) prec in
    Ok (Some (tick, p1, os)).

(** PoolBuyOrders, pool.go:592-631.  Outer [None]: loop did not finish. *)
Definition pool_buy_orders (p : pool) (lowest highest : dec) (prec : Z) : option porders :=
  match buy_start p lowest highest prec, pool_price p with
  | Ok (Some s), Ok pp =>
      match iter_until loop_bits (buy_step pp lowest prec) s with
      | inr (Some os) => Some os
      | inr None => Some []
      | inl _ => None
      end
  | _, _ => Some []
  end.

(** placeOrder of PoolSellOrders, pool.go:644-650. *)
Definition place_sell (p : pool) (price : dec) (amt : Z) (derive : bool) : res pool :=
  let! m := c_mul_int price amt in
  let! recv := c_trunc m in
  let! rx := i_add (p_rx p) recv in
  let! ry := i_sub (p_ry p) amt in
  set_balances p rx ry derive.

(** Loop body of PoolSellOrders, pool.go:658-670. *)
Definition sell_step (pp highest : dec) (prec : Z) (s : dec * pool * porders)
  : (dec * pool * porders) + option porders :=
  let '(tick, p, os) := s in
  if highest <? tick then inr (Some os)
  else
    match (let! amt := sell_amount_under p tick in
           if amt <? min_coin_amount then Ok (amt, true)
           else let! m := c_mul_int tick amt in let! v := c_trunc m in Ok (amt, v =? 0)) with
    | Ok (amt, skip) =>
        if skip then inl (up_tick tick prec, p, os)
        else
          match place_sell p tick amt false with
          | Ok p' =>
              let os' := os ++ [(tick, amt)] in
              if p_ry p' <=? min_coin_amount then inr (Some os')
              else
                match (let! g := pool_order_price_gap_ratio pp tick in
                       let! t := c_mul tick (one_dec + g) in
                       price_to_up_tick_chk t prec) with
                | Ok tick' => inl (tick', p', os')
                | _ => inr None
                end
          | _ => inr None
          end
    | _ => inr None
    end.

(** PoolSellOrders before the loop, pool.go:639-657. *)
Definition sell_start (p : pool) (lowest highest : dec) (prec : Z) : res (option (dec * pool * porders)) :=
  let! pp := pool_price p in
  if highest <=? pp then Ok None
  else
    let! (p1, os) :=
      (if pp <? lowest then
         let! amt := sell_amount_to p lowest in
         if min_coin_amount <=? amt then
           let! m := c_mul_int lowest amt in
           let! v := c_trunc m in
           if 0 <? v then
             let! p' := place_sell p lowest amt true in Ok (p', [(lowest, amt)])
           else Ok (p, [])
         else Ok (p, [])
       else Ok (p, [])) in
    let! pp1 := pool_price p1 in
    let! tick := price_to_up_tick_chk (Z.max lowest pp1) prec in
    Ok (Some (tick, p1, os)).

(** PoolSellOrders, pool.go:633-672. *)
Definition pool_sell_orders (p : pool) (lowest highest : dec) (prec : Z) : option porders :=
  match sell_start p lowest highest prec, pool_price p with
  | Ok (Some s), Ok pp =>
      match iter_until loop_bits (sell_step pp highest prec) s with
      | inr (Some os) => Some os
      | inr None => Some []
      | inl _ => None
      end
  | _, _ => Some []
  end.

(** A pool as an OrderView, pool.go:98-149: what FindMatchPrice reads. Panics become 0/None; see
    [pool_view_ok] for when they do not occur. *)
Definition ok_or0 (r : res Z) : Z := match r with Ok z => z | _ => 0 end.
Definition ov_of_pool (p : pool) : order_view :=
  let pr := match pool_price p with Ok x => Some x | _ => None end in
  mkOV pr pr (fun price _ => ok_or0 (buy_amount_over p price)) (fun price _ => ok_or0 (sell_amount_under p price)).

(** PriceLimits, /repo/x/dex/types/util.go:100-104. *)
Definition price_limits (last ratio : dec) (prec : Z) : res (dec * dec) :=
  let! a := c_mul last (one_dec - ratio) in
  let! lo := price_to_up_tick_chk a prec in
  let! b := c_mul last (one_dec + ratio) in
  let! hi := price_to_down_tick_chk b prec in
  Ok (lo, hi).
