(** What a batch pays into and out of the reserve of a pool (C79). *)
From Verif Require Import Base Dec TickModel OrderModel MatchModel MatchSpec PoolModel KeeperModel ProductSpec.

(** A single order of amount [r] at price [mp], if there is an amount. *)
Definition at_price (mp : dec) (r : res Z) : list (dec * Z) :=
  match r with Ok x => if 0 <? x then [(mp, x)] else [] | _ => [] end.
(** The orders (price, amount) the pool [p] puts into a batch: all its orders within the price limits
    around the last price; without a last price, what it trades at the price [mp] found for the batch. *)
Definition offers (p : pool) (last : option dec) (prm : params) (mp : dec) (bs ss : list (dec * Z)) : Prop :=
  match last with
  | Some l => exists lo hi, price_limits l (pm_price_ratio prm) (pm_tick_prec prm) = Ok (lo, hi) /\
      pool_buy_orders p lo hi (pm_tick_prec prm) = Some bs /\ pool_sell_orders p lo hi (pm_tick_prec prm) = Some ss
  | None => bs = at_price mp (buy_amount_over p mp) /\ ss = at_price mp (sell_amount_under p mp)
  end.

(** The reserves as the bank has them. *)
Definition reserve (s : state) (n : Z) (d : denom) : Z := bal (st_bank s) (PoolReserve n) d.
(** [sm]: all pairs of [s] have been matched. *)
Definition all_matched iter (s sm : state) : Prop := for_each (fun kv => execute_matching iter (snd kv)) (st_pairs s) s = Some sm.

(** Between [s] and [sm] the pool [p] of pair [pr] traded: it took part with the reserves it had, and what
    left and entered its reserve are the fills [fb] of its buy orders and [fs] of its sell orders. *)
Record traded (s sm : state) (pr : pair) (p : kpool) (mp : dec) (ap : pool) (bs ss : list (dec * Z)) (fb fs : list (list (Z * dec))) : Prop := mkTraded {
  tr_active : pl_disabled p = false;
  tr_pool : amm_pool p (reserve s (pl_id p) (pr_quote pr)) (reserve s (pl_id p) (pr_base pr)) (supply (st_bank s) (PoolCoin (pl_id p))) = Ok ap;
  tr_stock : is_depleted ap = false;
  tr_offers : offers ap (pr_last_price pr) (st_params s) mp bs ss;
  tr_bought : bought bs fb;
  tr_sold : sold ss fs;
  tr_one_way : fills_all fb = 0 \/ fills_all fs = 0;
  tr_quote : reserve sm (pl_id p) (pr_quote pr) = reserve s (pl_id p) (pr_quote pr) - cost_all fb + gain_all fs;
  tr_base : reserve sm (pl_id p) (pr_base pr) = reserve s (pl_id p) (pr_base pr) + base_all fb - base_all fs;
  tr_other : forall d, d <> pr_quote pr -> d <> pr_base pr -> reserve sm (pl_id p) d = reserve s (pl_id p) d
}.
