(** What stored orders and requests have given back to their owner so far. *)
From Verif Require Import Base Dec OrderModel MatchModel PoolModel KeeperModel KeeperSpec KeeperSpec2 MatchProofs.

(** An order: what it has received, and the remaining offer coin once it has ended. *)
Definition order_return (d : denom) (o : korder) : Z :=
  of_denom d (ko_demand_denom o) (ko_received o) + if live o then 0 else of_denom d (ko_offer_denom o) (ko_remaining o).
(** A deposit request: once executed, the coins not accepted and the pool coins minted for it. *)
Definition dep_return (d : denom) (r : dreq) : Z :=
  match dr_status r with
  | RNotExecuted => 0
  | RFailed => amount_of (dr_coins r) d
  | RSucceeded => amount_of (dr_coins r) d - amount_of (dr_accepted r) d + of_denom d (PoolCoin (dr_pool r)) (dr_minted r)
  end.
(** A withdraw request: once executed, the withdrawn coins, or the pool coins if it failed. *)
Definition wd_return (d : denom) (r : wreq) : Z :=
  match wr_status r with
  | RNotExecuted => 0
  | RFailed => of_denom d (wr_denom r) (wr_amt r)
  | RSucceeded => amount_of (wr_withdrawn r) d
  end.
(** Everything the stored orders and requests of [a] have given back. *)
Definition returned (s : state) (a : addr) (d : denom) : Z :=
  order_sum s (fun o => at_acc a (ko_owner o) (order_return d o)) +
  dep_sum s (fun r => at_acc a (dr_owner r) (dep_return d r)) +
  wd_sum s (fun r => at_acc a (wr_owner r) (wd_return d r)).

(** The state [sa] in which the end blocker matches the orders of pair [pr] (after the pairs before it). *)
Definition at_matching iter (s : state) (pr : pair) (sa : state) : Prop :=
  exists l1 l2, st_pairs s = l1 ++ ((pr_id pr, 0), pr) :: l2 /\ for_each (fun kv => execute_matching iter (snd kv)) l1 s = Some sa.
(** The matching engine for pair [pr] in state [sa] gets the user orders [hu]. *)
Definition offered (sa : state) (pr : pair) (hu : heap) : Prop :=
  exists s1, collect_orders (mprefix (st_orders sa) (pr_id pr)) sa [] = Some (s1, hu).
(** The order [uo] given to the matching engine carries the terms and the unfilled part of [o], at
    most as much as the remaining offer coin can pay. *)
Definition stands_for (uo : order) (o : korder) : Prop :=
  o_kind uo = KUser (ko_id o) /\ o_dir uo = ko_dir o /\ o_price uo = ko_price o /\ o_batch uo = ko_batch o /\ o_offer uo = ko_remaining o /\
  o_amt uo <= ko_open o /\ (o_amt uo = ko_open o \/ ko_dir o = Buy /\ o_amt uo = ko_remaining o * P18 / ko_price o) /\ o_open uo = o_amt uo /\ o_paid uo = 0 /\ o_recv uo = 0.
(** [o1] is [o] after its unfilled part was filled like [m]. *)
Definition after_fills (o o1 : korder) (m : order) : Prop :=
  o1 = mkKOrder (ko_type o) (ko_id o) (ko_pair o) (ko_height o) (ko_owner o) (ko_dir o) (ko_offer_denom o) (ko_offer o)
         (ko_remaining o - o_paid m) (ko_demand_denom o) (ko_received o + o_recv m) (ko_price o) (ko_amt o) (ko_open o - (o_amt m - o_open m)) (ko_batch o) (ko_expire o)
         (if ko_open o - (o_amt m - o_open m) =? 0 then OCompleted else OPartiallyMatched).

(** An order ends at block time [t] when it has expired or when its unfilled part is too small. *)
Definition must_end (t : Z) (o : korder) : Prop := ko_expire o <= t \/ ~ big_enough (ko_price o) (ko_open o).
(** [o'] is [o] after the expiry step at time [t]. *)
Definition after_expiry (t : Z) (o o' : korder) : Prop :=
  (o' = o /\ (live o = true -> ~ must_end t o)) \/ (live o = true /\ must_end t o /\ o' = ko_with_status o OExpired).
