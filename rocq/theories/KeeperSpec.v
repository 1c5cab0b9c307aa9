(** Specification vocabulary for the keeper: histories of the chain, conservation of coins, and
    what the accounts owe.  Uses only the transition functions of KeeperModel. *)
From Verif Require Import Base Dec OrderModel MatchModel PoolModel KeeperModel MatchProofs.

(** Every coin unit is on exactly one of finitely many accounts and counted in the supply. *)
Definition conserved (b : bank) : Prop :=
  exists accounts, NoDup accounts /\ (forall a d, ~ In a accounts -> bal b a d = 0) /\
    forall d, supply b d = sumZ (map (fun a => bal b a d) accounts).

(** Initial balances: arbitrary, except that no pool coin exists before its pool. *)
Definition genesis_bank (b : bank) : Prop :=
  (forall a d, 0 <= bal b a d) /\ conserved b /\ forall i, supply b (PoolCoin i) = 0.

(** A history: blocks of messages between a begin blocker and an end blocker.  [Q] restricts the
    parameters ever in force ([any_params]: no restriction).  A rejected message changes nothing
    and is not a step; a failing end blocker stops the chain. *)
Inductive phase := Between | InBlock.
Definition config := (phase * state)%type.
Definition any_params : params -> Prop := fun _ => True.
(** The price limit ratio is below one (its validator has no upper bound; the default is 0.1). *)
Definition sane_ratio (p : params) : Prop := pm_price_ratio p < P18.
Definition sane (Q : params -> Prop) : params -> Prop := fun p => Q p /\ sane_ratio p.

Inductive step (Q : params -> Prop) : config -> config -> Prop :=
| Step_begin s t : st_time s <= t -> step Q (Between, s) (InBlock, begin_block s t)
| Step_msg s m s' : deliver s m = Some s' -> (forall p, m = MUpdateParams p -> Q p) -> step Q (InBlock, s) (InBlock, s')
| Step_end iter s s' : is_perm_iter iter -> end_block iter s = Some s' -> step Q (InBlock, s) (Between, s').

Inductive runs (Q : params -> Prop) : config -> config -> Prop :=
| Runs_refl c : runs Q c c
| Runs_step c1 c2 c3 : runs Q c1 c2 -> step Q c2 c3 -> runs Q c1 c3.

Definition genesis (Q : params -> Prop) (s : state) : Prop :=
  exists p b h t, valid_params p = true /\ Q p /\ genesis_bank b /\ 0 <= h /\ s = init_state p b h t.

Definition reach (Q : params -> Prop) (c : config) : Prop :=
  exists s0, genesis Q s0 /\ runs Q (Between, s0) c.

(** [holds_of s f]: the sum of [f] over the stored orders, and likewise for requests. *)
Definition order_sum (s : state) (f : korder -> Z) : Z := sumZ (map (fun kv => f (snd kv)) (st_orders s)).
Definition dep_sum (s : state) (f : dreq -> Z) : Z := sumZ (map (fun kv => f (snd kv)) (st_deps s)).
Definition wd_sum (s : state) (f : wreq -> Z) : Z := sumZ (map (fun kv => f (snd kv)) (st_wds s)).

Definition pending (st : rstatus) : bool := match st with RNotExecuted => true | _ => false end.
Definition live (o : korder) : bool := negb (o_terminal (ko_status o)).

(** What the global escrow owes in coin [d]: deposits and withdrawals not executed yet. *)
Definition requests_owed (s : state) (d : denom) : Z :=
  dep_sum s (fun r => if pending (dr_status r) then amount_of (dr_coins r) d else 0) +
  wd_sum s (fun r => if pending (wr_status r) && denom_eqb d (wr_denom r) then wr_amt r else 0).

(** What pair [i]'s escrow owes in coin [d]: remaining offer coins of live orders. *)
Definition orders_owed (s : state) (i : Z) (d : denom) : Z :=
  order_sum s (fun o => if live o && (ko_pair o =? i) && denom_eqb d (ko_offer_denom o) then ko_remaining o else 0).

(** Number of live market making orders of [a] in pair [i]. *)
Definition live_mm_orders (s : state) (a : addr) (i : Z) : Z :=
  order_sum s (fun o => if live o && addr_eqb a (ko_owner o) && (ko_pair o =? i) && match ko_type o with TMM => true | _ => false end then 1 else 0).

(** What can happen to one order: the terms never change, a finished order never changes, and
    while it is live the filled part only grows. *)
Definition order_later (o o' : korder) : Prop :=
  ko_type o' = ko_type o /\ ko_id o' = ko_id o /\ ko_pair o' = ko_pair o /\ ko_height o' = ko_height o /\ ko_owner o' = ko_owner o /\
  ko_dir o' = ko_dir o /\ ko_offer_denom o' = ko_offer_denom o /\ ko_offer o' = ko_offer o /\ ko_demand_denom o' = ko_demand_denom o /\
  ko_price o' = ko_price o /\ ko_amt o' = ko_amt o /\ ko_batch o' = ko_batch o /\ ko_expire o' = ko_expire o /\
  ko_remaining o' <= ko_remaining o /\ ko_received o <= ko_received o' /\ ko_open o' <= ko_open o /\
  (live o = false -> o' = o) /\ (ko_status o' = ONotExecuted -> ko_status o = ONotExecuted) /\
  (ko_status o = OPartiallyMatched -> ko_status o' <> ONotMatched).
(** What can happen to one request: it is executed once. *)
Definition dep_later (r r' : dreq) : Prop :=
  dr_id r' = dr_id r /\ dr_pool r' = dr_pool r /\ dr_height r' = dr_height r /\ dr_owner r' = dr_owner r /\ dr_coins r' = dr_coins r /\
  (pending (dr_status r) = false \/ pending (dr_status r') = true -> r' = r).
Definition wd_later (r r' : wreq) : Prop :=
  wr_id r' = wr_id r /\ wr_pool r' = wr_pool r /\ wr_height r' = wr_height r /\ wr_owner r' = wr_owner r /\ wr_denom r' = wr_denom r /\ wr_amt r' = wr_amt r /\
  (pending (wr_status r) = false \/ pending (wr_status r') = true -> r' = r).
Definition pair_later (p p' : pair) : Prop :=
  pr_id p' = pr_id p /\ pr_base p' = pr_base p /\ pr_quote p' = pr_quote p /\ pr_last_order p <= pr_last_order p' /\ pr_batch p <= pr_batch p' /\
  (pr_last_price p' = None -> pr_last_price p = None).
Definition pool_later (p p' : kpool) : Prop :=
  pl_id p' = pl_id p /\ pl_pair p' = pl_pair p /\ pl_kind p' = pl_kind p /\ pl_creator p' = pl_creator p /\
  pl_last_dep p <= pl_last_dep p' /\ pl_last_wd p <= pl_last_wd p' /\ (pl_disabled p = true -> pl_disabled p' = true).

(** Number of pools of pair [i] that are not disabled. *)
Definition active_pools (s : state) (i : Z) : Z :=
  sumZ (map (fun kv => if negb (pl_disabled (snd kv)) && (pl_pair (snd kv) =? i) then 1 else 0) (st_pools s)).

(** What every later state keeps: pairs and pools persist; an order, request, pair or pool found
    later is either a continuation of the one with the same id or has an id never used before. *)
Record later (s s' : state) : Prop := mkLater {
  l_clock : st_height s <= st_height s' /\ st_time s <= st_time s';
  l_last_pair : st_last_pair s <= st_last_pair s';
  l_last_pool : st_last_pool s <= st_last_pool s';
  l_pairs : forall i p, get_pair s i = Some p -> exists p', get_pair s' i = Some p' /\ pair_later p p';
  l_new_pairs : forall i p', get_pair s' i = Some p' -> get_pair s i <> None \/ st_last_pair s < i <= st_last_pair s';
  l_pools : forall i p, get_pool s i = Some p -> exists p', get_pool s' i = Some p' /\ pool_later p p';
  l_new_pools : forall i p', get_pool s' i = Some p' -> get_pool s i <> None \/ st_last_pool s < i <= st_last_pool s';
  l_orders : forall i j o', get_order s' i j = Some o' ->
    (exists o, get_order s i j = Some o /\ order_later o o') \/
    (get_order s i j = None /\ forall pr, get_pair s i = Some pr -> pr_last_order pr < j);
  l_deps : forall i j r', mget (st_deps s') (i, j) = Some r' ->
    (exists r, mget (st_deps s) (i, j) = Some r /\ dep_later r r') \/
    (mget (st_deps s) (i, j) = None /\ forall p, get_pool s i = Some p -> pl_last_dep p < j);
  l_wds : forall i j r', mget (st_wds s') (i, j) = Some r' ->
    (exists r, mget (st_wds s) (i, j) = Some r /\ wd_later r r') \/
    (mget (st_wds s) (i, j) = None /\ forall p, get_pool s i = Some p -> pl_last_wd p < j)
}.

(** Effects on the bank. *)
Definition at_acc (a b : addr) (x : Z) : Z := if addr_eqb a b then x else 0.
Definition of_denom (d e : denom) (x : Z) : Z := if denom_eqb d e then x else 0.
Definition minted_to (b b' : bank) (i x : Z) (to : addr) : Prop :=
  (forall a d, bal b' a d = bal b a d + at_acc a to (of_denom d (PoolCoin i) x)) /\
  (forall d, supply b' d = supply b d + of_denom d (PoolCoin i) x).
(** A settled deposit: the offered coins leave the global escrow, the accepted ones go to the pool,
    the rest goes back, [pc] new pool coins go to the depositor. *)
Definition dep_settled (b b' : bank) (r : dreq) (accepted : coins) (pc : Z) : Prop :=
  (forall d, 0 <= amount_of accepted d <= amount_of (dr_coins r) d) /\ 0 < pc /\
  (forall d, amount_of (dr_coins r) d <= bal b GlobalEscrow d) /\
  (forall a d, bal b' a d = bal b a d - at_acc a GlobalEscrow (amount_of (dr_coins r) d)
     + at_acc a (PoolReserve (dr_pool r)) (amount_of accepted d)
     + at_acc a (dr_owner r) (amount_of (dr_coins r) d - amount_of accepted d + of_denom d (PoolCoin (dr_pool r)) pc)) /\
  (forall d, supply b' d = supply b d + of_denom d (PoolCoin (dr_pool r)) pc).
(** A settled withdrawal: the pool coins leave the global escrow and are destroyed, the withdrawn
    coins go from the pool to the withdrawer. *)
Definition wd_settled (b b' : bank) (r : wreq) (withdrawn : coins) : Prop :=
  (forall d, 0 <= amount_of withdrawn d <= bal b (PoolReserve (wr_pool r)) d) /\
  wr_amt r <= bal b GlobalEscrow (wr_denom r) /\
  (forall a d, bal b' a d = bal b a d - at_acc a GlobalEscrow (of_denom d (wr_denom r) (wr_amt r))
     - at_acc a (PoolReserve (wr_pool r)) (amount_of withdrawn d) + at_acc a (wr_owner r) (amount_of withdrawn d)) /\
  (forall d, supply b' d = supply b d - of_denom d (wr_denom r) (wr_amt r)).

Definition succeeded (st : rstatus) : bool := match st with RSucceeded => true | _ => false end.
(** Pool coins of pool [i] minted by stored succeeded deposits, burned by stored succeeded withdrawals. *)
Definition minted_by_deposits (s : state) (i : Z) : Z := dep_sum s (fun r => if succeeded (dr_status r) && (dr_pool r =? i) then dr_minted r else 0).
Definition burned_by_withdrawals (s : state) (i : Z) : Z := wd_sum s (fun r => if succeeded (wr_status r) && (wr_pool r =? i) then wr_amt r else 0).

(** The two outcomes of a deposit request [r] of pool [p] (pair [pr]) executed in state [s]: the pool
    computes what it accepts and mints from its reserves and supply at that moment. *)
Definition dep_refused (b b' : bank) (r : dreq) (r' : dreq) : Prop :=
  r' = mkDreq (dr_id r) (dr_pool r) (dr_height r) (dr_owner r) (dr_coins r) [] 0 RFailed /\
  (forall a d, bal b' a d = bal b a d - at_acc a GlobalEscrow (amount_of (dr_coins r) d) + at_acc a (dr_owner r) (amount_of (dr_coins r) d)) /\
  (forall d, supply b' d = supply b d).
Definition dep_accepted (s : state) (b' : bank) (p : kpool) (pr : pair) (r r' : dreq) : Prop :=
  exists ax ay pc acc, pl_disabled p = false /\
    deposit (bal (st_bank s) (PoolReserve (pl_id p)) (pr_quote pr)) (bal (st_bank s) (PoolReserve (pl_id p)) (pr_base pr)) (supply (st_bank s) (PoolCoin (pl_id p)))
            (amount_of (dr_coins r) (pr_quote pr)) (amount_of (dr_coins r) (pr_base pr)) = Ok (ax, ay, pc) /\
    (forall d, amount_of acc d = if denom_eqb d (pr_quote pr) then ax else if denom_eqb d (pr_base pr) then ay else 0) /\
    r' = mkDreq (dr_id r) (dr_pool r) (dr_height r) (dr_owner r) (dr_coins r) acc pc RSucceeded /\
    dep_settled (st_bank s) b' r acc pc.
Definition wd_refused (b b' : bank) (r : wreq) (r' : wreq) : Prop :=
  r' = mkWreq (wr_id r) (wr_pool r) (wr_height r) (wr_owner r) (wr_denom r) (wr_amt r) [] RFailed /\
  (forall a d, bal b' a d = bal b a d - at_acc a GlobalEscrow (of_denom d (wr_denom r) (wr_amt r)) + at_acc a (wr_owner r) (of_denom d (wr_denom r) (wr_amt r))) /\
  (forall d, supply b' d = supply b d).
Definition wd_accepted (s : state) (b' : bank) (p : kpool) (pr : pair) (r r' : wreq) : Prop :=
  exists x y w, pl_disabled p = false /\
    withdraw (bal (st_bank s) (PoolReserve (pl_id p)) (pr_quote pr)) (bal (st_bank s) (PoolReserve (pl_id p)) (pr_base pr)) (supply (st_bank s) (PoolCoin (pl_id p)))
             (wr_amt r) (pm_withdraw_fee (st_params s)) = Ok (x, y) /\
    (forall d, amount_of w d = if denom_eqb d (pr_quote pr) then x else if denom_eqb d (pr_base pr) then y else 0) /\
    r' = mkWreq (wr_id r) (wr_pool r) (wr_height r) (wr_owner r) (wr_denom r) (wr_amt r) w RSucceeded /\
    wd_settled (st_bank s) b' r w.

(** The state in which the end blocker executes the deposit (withdraw) request with key [k]: after
    matching, after expiry, after the requests before it. *)
Definition at_deposit iter (s : state) (k : key) (r : dreq) (sa : state) : Prop :=
  exists s1 s2 l1 l2, for_each (fun kv => execute_matching iter (snd kv)) (st_pairs s) s = Some s1 /\
    for_each (fun kv => expire_order (snd kv)) (st_orders s1) s1 = Some s2 /\
    st_deps s2 = l1 ++ (k, r) :: l2 /\ for_each (fun kv => execute_dep_if (snd kv)) l1 s2 = Some sa.
Definition at_withdraw iter (s : state) (k : key) (r : wreq) (sa : state) : Prop :=
  exists s1 s2 s3 l1 l2, for_each (fun kv => execute_matching iter (snd kv)) (st_pairs s) s = Some s1 /\
    for_each (fun kv => expire_order (snd kv)) (st_orders s1) s1 = Some s2 /\
    for_each (fun kv => execute_dep_if (snd kv)) (st_deps s2) s2 = Some s3 /\
    st_wds s3 = l1 ++ (k, r) :: l2 /\ for_each (fun kv => execute_wd_if (snd kv)) l1 s3 = Some sa.
