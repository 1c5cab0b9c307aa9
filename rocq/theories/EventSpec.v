(** Reading the event log (C84). *)
From Verif Require Import Base Dec OrderModel MatchModel KeeperModel KeeperSpec MatchProofs EventModel.

(** Events that concern order [j] of pair [i], request [j] of pool [n]. *)
Definition on_order (i j : Z) (e : event) : bool :=
  match e with
  | OrderResult _ _ p k _ _ _ _ _ _ _ _ => (p =? i) && (k =? j)
  | UserOrderMatched _ _ p k _ _ _ _ _ => (p =? i) && (k =? j)
  | _ => false
  end.
Definition on_deposit (n j : Z) (e : event) : bool := match e with DepositResult k _ p _ _ _ _ _ => (p =? n) && (k =? j) | _ => false end.
Definition on_withdrawal (n j : Z) (e : event) : bool := match e with WithdrawalResult k _ p _ _ _ _ _ => (p =? n) && (k =? j) | _ => false end.

(** What the matches in a log add up to. *)
Definition ev_matched (e : event) : Z := match e with UserOrderMatched _ _ _ _ m _ _ _ _ => m | _ => 0 end.
Definition ev_paid (e : event) : Z := match e with UserOrderMatched _ _ _ _ _ _ x _ _ => x | _ => 0 end.
Definition ev_received (e : event) : Z := match e with UserOrderMatched _ _ _ _ _ _ _ _ x => x | _ => 0 end.
Definition total (f : event -> Z) (log : list event) : Z := sumZ (map f log).
Definition is_result (e : event) : bool := match e with OrderResult _ _ _ _ _ _ _ _ _ _ _ _ => true | _ => false end.
(** The event shows the order's owner, direction and coins. *)
Definition labelled (o : korder) (e : event) : Prop :=
  match e with
  | OrderResult d u _ _ a _ od x _ dd _ _ => d = ko_dir o /\ u = ko_owner o /\ a = ko_amt o /\ od = ko_offer_denom o /\ x = ko_offer o /\ dd = ko_demand_denom o
  | UserOrderMatched d u _ _ _ od _ dd _ => d = ko_dir o /\ u = ko_owner o /\ od = ko_offer_denom o /\ dd = ko_demand_denom o
  | _ => True
  end.

(** The log tells the truth about an order: the matches add up to what was filled, paid and received since the
    order was placed, and its end is reported once, with the final figures, if it has ended. *)
Definition order_told (i j : Z) (o : korder) (log : list event) : Prop :=
  let l := filter (on_order i j) log in
  total ev_matched l = ko_amt o - ko_open o /\ total ev_paid l = ko_offer o - ko_remaining o /\ total ev_received l = ko_received o /\
  Forall (labelled o) l /\
  filter is_result l = if o_terminal (ko_status o) then [OrderResult (ko_dir o) (ko_owner o) i j (ko_amt o) (ko_open o) (ko_offer_denom o) (ko_offer o) (ko_remaining o) (ko_demand_denom o) (ko_received o) (ko_status o)] else [].
(** A request is reported once it is executed, with what was accepted, given back and minted or paid out. *)
Definition deposit_told (n j : Z) (r : dreq) (log : list event) : Prop :=
  match dr_status r with
  | RNotExecuted => filter (on_deposit n j) log = []
  | st => exists refund, filter (on_deposit n j) log = [DepositResult j (dr_owner r) n (dr_coins r) (dr_accepted r) refund (dr_minted r) st] /\
            forall d, amount_of refund d = amount_of (dr_coins r) d - amount_of (dr_accepted r) d
  end.
Definition withdrawal_told (n j : Z) (r : wreq) (log : list event) : Prop :=
  filter (on_withdrawal n j) log =
  match wr_status r with
  | RNotExecuted => []
  | RSucceeded => [WithdrawalResult j (wr_owner r) n (wr_denom r) (wr_amt r) [] (wr_withdrawn r) RSucceeded]
  | RFailed => [WithdrawalResult j (wr_owner r) n (wr_denom r) (wr_amt r) [(wr_denom r, wr_amt r)] (wr_withdrawn r) RFailed]
  end.

(** Histories with their log. *)
Inductive step_log (Q : params -> Prop) : config -> list event -> config -> Prop :=
| Log_begin s t : st_time s <= t -> step_log Q (Between, s) [] (InBlock, begin_block s t)
| Log_msg s m s' ev : deliver_e s m = Some (s', ev) -> (forall p, m = MUpdateParams p -> Q p) -> step_log Q (InBlock, s) ev (InBlock, s')
| Log_end iter s s' ev : is_perm_iter iter -> end_block_e iter s = Some (s', ev) -> step_log Q (InBlock, s) ev (Between, s').
Inductive runs_log (Q : params -> Prop) : config -> list event -> config -> Prop :=
| Log_none c : runs_log Q c [] c
| Log_more c1 c2 c3 log ev : runs_log Q c1 log c2 -> step_log Q c2 ev c3 -> runs_log Q c1 (log ++ ev) c3.

(** What the log says a pool paid and received in coin [d]. *)
Definition pool_paid (n : Z) (d : denom) (e : event) : Z := match e with PoolOrderMatched _ _ k _ pd x _ _ => if (k =? n) && denom_eqb d pd then x else 0 | _ => 0 end.
Definition pool_received (n : Z) (d : denom) (e : event) : Z := match e with PoolOrderMatched _ _ k _ _ _ rd x => if (k =? n) && denom_eqb d rd then x else 0 | _ => 0 end.

(** A match event speaks of one trade: the two coins of its pair, the offered one paid and the other received, and the
    matched amount is the amount of base coin that changed hands. *)
Definition base_moved (d : dir) (paid received : Z) : Z := match d with Buy => received | Sell => paid end.
Definition trade_shown (s : state) (e : event) : Prop :=
  match e with
  | UserOrderMatched d _ i _ m _ paid _ received => is_some (get_pair s i) = true /\ m = base_moved d paid received
  | PoolOrderMatched d i _ m pd paid rd received => (exists pr, get_pair s i = Some pr /\ pd = offer_denom_of pr d /\ rd = demand_denom_of pr d) /\ m = base_moved d paid received
  | _ => True
  end.
(** The pools a log speaks of, with the pair. *)
Definition pools_named (log : list event) : list (Z * Z) := flat_map (fun e => match e with PoolOrderMatched _ i n _ _ _ _ _ => [(i, n)] | _ => [] end) log.
