(** When a batch stays within the number ranges of [math.Int] and [math.LegacyDec]. *)
From Verif Require Import Base Dec TickModel TickSpec OrderModel MatchModel PoolModel KeeperModel KeeperSpec.

(** What a resting order can put into a batch: its open amount and its remaining offer coins. *)
Definition order_load (o : korder) : Z := if live o then ko_open o + ko_remaining o else 0.
Definition users_load (s : state) (i : Z) : Z := sumZ (map (fun kv => order_load (snd kv)) (mprefix (st_orders s) i)).
(** A bound for the orders of all pools of a pair with lowest order price [lo]: with total reserves
    X (quote coin) and Y (base coin) they offer at most X and Y, and buy at most X / lo. *)
Definition pools_load (x y : Z) (lo : dec) : Z := x + x * P18 / lo + 2 * y.

(** The pair's batch is small: the largest price times the total size is below 2^314 (as raw
    decimals), and the total size is below 2^195. *)
Definition roomy (s : state) (pr : pair) : Prop :=
  exists P W, 0 <= W < 2 ^ 195 /\ P * W < 2 ^ 314 /\
    (forall j o, get_order s (pr_id pr) j = Some o -> live o = true -> ko_price o <= P) /\
    match pr_last_price pr with
    | Some last => exists lo hi, price_limits last (pm_price_ratio (st_params s)) (pm_tick_prec (st_params s)) = Ok (lo, hi) /\
        last <= P /\ lo <= hi <= P /\
        users_load s (pr_id pr) + pools_load (supply (st_bank s) (pr_quote pr)) (supply (st_bank s) (pr_base pr)) lo <= W
    | None => users_load s (pr_id pr) <= W /\
        (forall k p, get_pool s k = Some p -> pl_pair p = pr_id pr -> pl_disabled p = true) /\
        forall j o, get_order s (pr_id pr) j = Some o -> live o = true ->
          is_tick (pm_tick_prec (st_params s)) (ko_price o) /\ lowest_tick (pm_tick_prec (st_params s)) <= ko_price o <= highest_tick (pm_tick_prec (st_params s))
    end.
