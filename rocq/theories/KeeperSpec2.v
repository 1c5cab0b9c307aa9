(** More specification vocabulary for the keeper: refunds, locked coins, what a user was paid. *)
From Verif Require Import Base Dec TickModel TickSpec OrderModel MatchModel PoolModel KeeperModel KeeperSpec MatchProofs.

(** The remaining offer coin of [o] goes from the pair escrow back to its owner, nothing else moves. *)
Definition refunded (b b' : bank) (o : korder) : Prop :=
  (forall a d, bal b' a d = bal b a d + at_acc a (ko_owner o) (of_denom d (ko_offer_denom o) (ko_remaining o))
                            - at_acc a (PairEscrow (ko_pair o)) (of_denom d (ko_offer_denom o) (ko_remaining o))) /\
  (forall d, supply b' d = supply b d).
(** [o] ends with status [st]: refunded, and no other order, request, pair or pool changes. *)
Definition order_closed (s s' : state) (o : korder) (st : ostatus) : Prop :=
  refunded (st_bank s) (st_bank s') o /\
  (forall i j, get_order s' i j = if (i =? ko_pair o) && (j =? ko_id o) then Some (ko_with_status o st) else get_order s i j) /\
  st_pairs s' = st_pairs s /\ st_pools s' = st_pools s /\ st_deps s' = st_deps s /\ st_wds s' = st_wds s /\ st_params s' = st_params s.

(** Coins of [a] locked in its live orders. *)
Definition locked (s : state) (a : addr) (d : denom) : Z :=
  order_sum s (fun o => if live o && addr_eqb a (ko_owner o) then of_denom d (ko_offer_denom o) (ko_remaining o) else 0).

(** An order placed in a batch of its pair that has already run. *)
Definition earlier_batch (s : state) (o : korder) : Prop := exists pr, get_pair s (ko_pair o) = Some pr /\ ko_batch o < pr_batch pr.

(** ** Placing orders *)
(** The band in which a limit price must lie: the price limits around the last price, or the whole
    tick range before the first trade. *)
Definition price_allowed (s : state) (pr : pair) (price : dec) : Prop :=
  exists lo hi, lo <= price <= hi /\
    match pr_last_price pr with
    | Some last => price_limits last (pm_price_ratio (st_params s)) (pm_tick_prec (st_params s)) = Ok (lo, hi)
    | None => pm_tick_prec (st_params s) <= 18 /\ lo = lowest_tick (pm_tick_prec (st_params s)) /\ hi = highest_tick (pm_tick_prec (st_params s))
    end.
(** Buy orders are placed at the highest tick not above, sell orders at the lowest tick not below the wanted price. *)
Definition tick_for (d : dir) (prec target price : Z) : Prop :=
  match d with Buy => greatest_tick_le prec target price | Sell => least_tick_ge prec target price end.
Definition offered_denom (pr : pair) (d : dir) : denom := match d with Buy => pr_quote pr | Sell => pr_base pr end.
Definition demanded_denom (pr : pair) (d : dir) : denom := match d with Buy => pr_base pr | Sell => pr_quote pr end.
(** Amount and value are at least the minimum (100), the value is in the decimal range. *)
Definition big_enough (price amt : Z) : Prop := min_coin_amount <= amt /\ of_int min_coin_amount <= price * amt < 2 ^ 315.

(** [o] is a new order of pair [pr] and the only effect: [cost] offer coins of the owner move to the
    escrow, the pair's order number goes up by one, the order is stored with nothing filled. *)
Definition order_placed (s s' : state) (pr : pair) (o : korder) : Prop :=
  ko_pair o = pr_id pr /\ ko_id o = pr_last_order pr + 1 /\ ko_offer_denom o = offered_denom pr (ko_dir o) /\ ko_demand_denom o = demanded_denom pr (ko_dir o) /\
  ko_offer o = offer_coin_amount (ko_dir o) (ko_price o) (ko_amt o) /\ ko_remaining o = ko_offer o /\ ko_received o = 0 /\ ko_open o = ko_amt o /\
  ko_batch o = pr_batch pr /\ ko_height o = st_height s /\ ko_status o = ONotExecuted /\
  (forall a e, bal (st_bank s') a e = bal (st_bank s) a e - at_acc a (ko_owner o) (of_denom e (ko_offer_denom o) (ko_offer o))
     + at_acc a (PairEscrow (pr_id pr)) (of_denom e (ko_offer_denom o) (ko_offer o))) /\
  (forall e, supply (st_bank s') e = supply (st_bank s) e) /\
  get_order s (pr_id pr) (ko_id o) = None /\
  (forall j k, get_order s' j k = if (j =? pr_id pr) && (k =? ko_id o) then Some o else get_order s j k) /\
  (forall j, get_pair s' j = if j =? pr_id pr then Some (mkPair (pr_id pr) (pr_base pr) (pr_quote pr) (ko_id o) (pr_last_price pr) (pr_batch pr)) else get_pair s j) /\
  (forall a j, st_mm s' a j = st_mm s a j + if addr_eqb a (ko_owner o) && (j =? pr_id pr) && match ko_type o with TMM => true | _ => false end then 1 else 0) /\
  st_pools s' = st_pools s /\ st_deps s' = st_deps s /\ st_wds s' = st_wds s /\ st_params s' = st_params s /\ st_height s' = st_height s /\ st_time s' = st_time s.

(** When a limit or market making order is acceptable; it is placed at the tick [rp]. *)
Definition limit_terms (s : state) (u i : Z) (d : dir) (od : denom) (offer : Z) (dd : denom) (price amt l : Z) (pr : pair) (rp : Z) : Prop :=
  get_pair s i = Some pr /\ od = offered_denom pr d /\ dd = demanded_denom pr d /\
  0 < price /\ price_allowed s pr price /\ tick_for d (pm_tick_prec (st_params s)) price rp /\
  amt <= max_coin_amount /\ min_coin_amount <= offer <= max_coin_amount /\ offer_coin_amount d price amt <= offer /\
  offer <= bal (st_bank s) (User u) od /\ big_enough rp amt /\ 0 <= l <= pm_max_lifespan (st_params s).

(** When a market order is acceptable.  It aims at 18 digits of last * (1 + ratio) (buy) or
    last * (1 - ratio) (sell) and is placed at the tick [rp]. *)
Definition market_terms (s : state) (u i : Z) (d : dir) (od : denom) (offer : Z) (dd : denom) (amt l : Z) (pr : pair) (last target rp : Z) : Prop :=
  get_pair s i = Some pr /\ od = offered_denom pr d /\ dd = demanded_denom pr d /\
  pr_last_price pr = Some last /\ target = dmul last (match d with Buy => P18 + pm_price_ratio (st_params s) | Sell => P18 - pm_price_ratio (st_params s) end) /\ 0 < target < 2 ^ 315 /\
  tick_for d (pm_tick_prec (st_params s)) target rp /\
  amt <= max_coin_amount /\ min_coin_amount <= offer <= max_coin_amount /\ offer_coin_amount d rp amt <= offer /\
  offer <= bal (st_bank s) (User u) od /\ big_enough rp amt /\ 0 <= l <= pm_max_lifespan (st_params s).
