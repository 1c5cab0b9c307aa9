(** When an announcement is true of what a message did: [s] before, [s'] after. *)
From Verif Require Import Base Dec OrderModel MatchModel KeeperModel KeeperSpec AnnounceModel.

(** The reserve [res] of a new pool received exactly the coins [cs]. *)
Definition received (s s' : state) (res : addr) (cs : coins) : Prop := forall d, bal (st_bank s') res d = bal (st_bank s) res d + amount_of cs d.
(** It received no more of any coin than [cs]. *)
Definition received_at_most (s s' : state) (res : addr) (cs : coins) : Prop := forall d, bal (st_bank s) res d <= bal (st_bank s') res d <= bal (st_bank s) res d + amount_of cs d.

(** An order that was not cancelled before and is now. *)
Definition got_canceled (s s' : state) (k : Z * Z) : Prop :=
  exists o o', get_order s (fst k) (snd k) = Some o /\ ko_status o <> OCanceled /\ get_order s' (fst k) (snd k) = Some o' /\ ko_status o' = OCanceled.

(** [coins_told ranged s s' res cs] is what the announcement of a pool says about the coins. *)
Definition true_ann (coins_told : bool -> state -> state -> addr -> coins -> Prop) (s s' : state) (a : ann) : Prop :=
  match a with
  | APair u base quote id escrow =>
      get_pair s id = None /\ escrow = PairEscrow id /\ exists p, get_pair s' id = Some p /\ pr_base p = base /\ pr_quote p = quote
  | APool ranged u i cs id res pc minted =>
      get_pool s id = None /\ res = PoolReserve id /\ pc = PoolCoin id /\
      (exists p, get_pool s' id = Some p /\ pl_pair p = i /\ pl_creator p = User u /\ pl_disabled p = false /\ match pl_kind p with PBasic => ranged = false | PRanged _ _ => ranged = true end) /\
      supply (st_bank s') pc = supply (st_bank s) pc + minted /\ (pm_fee_collector (st_params s) <> res -> coins_told ranged s s' res cs)
  | ADeposit u i cs id =>
      mget (st_deps s) (i, id) = None /\ (exists r, mget (st_deps s') (i, id) = Some r /\ dr_pool r = i /\ dr_id r = id /\ dr_owner r = User u /\ dr_coins r = cs /\ dr_status r = RNotExecuted) /\
      forall d, bal (st_bank s') GlobalEscrow d = bal (st_bank s) GlobalEscrow d + amount_of cs d
  | AWithdraw u i pc x id =>
      mget (st_wds s) (i, id) = None /\ (exists r, mget (st_wds s') (i, id) = Some r /\ wr_pool r = i /\ wr_id r = id /\ wr_owner r = User u /\ wr_denom r = pc /\ wr_amt r = x /\ wr_status r = RNotExecuted) /\
      forall d, bal (st_bank s') GlobalEscrow d = bal (st_bank s) GlobalEscrow d + of_denom d pc x
  | AOrder typ u i d od offer dd price amt id batch expire rd refund =>
      get_order s i id = None /\ (exists o, get_order s' i id = Some o /\ ko_type o = typ /\ ko_owner o = User u /\ ko_pair o = i /\ ko_id o = id /\ ko_dir o = d /\ ko_offer_denom o = od /\ ko_offer o = offer /\
        ko_remaining o = offer /\ ko_demand_denom o = dd /\ ko_price o = price /\ ko_amt o = amt /\ ko_open o = amt /\ ko_batch o = batch /\ ko_expire o = expire /\ ko_status o = ONotExecuted) /\
      (forall e, bal (st_bank s') (User u) e = bal (st_bank s) (User u) e - of_denom e od offer) /\
      (forall e, bal (st_bank s') (PairEscrow i) e = bal (st_bank s) (PairEscrow i) e + of_denom e od offer) /\
      0 <= refund /\ rd = od
  | ACancel u i j => got_canceled s s' (i, j) /\ exists o, get_order s i j = Some o /\ ko_owner o = User u
  | ACancelAll u ids l =>
      exists ks, l = map snd ks /\ NoDup ks /\ (forall k, In k ks <-> got_canceled s s' k) /\
        forall k, In k ks -> (ids = [] \/ In (fst k) ids) /\ exists o, get_order s (fst k) (snd k) = Some o /\ ko_owner o = User u
  end.

(** What the code gets right, and what would be right. *)
Definition as_told (ranged : bool) := received.
Definition at_most_told (ranged : bool) := if ranged then received_at_most else received.

(** Which announcement a message must lead to. *)
Definition about (m : msg) (a : ann) : Prop :=
  match m, a with
  | MCreatePair u b q, APair u' b' q' _ _ => u' = u /\ b' = b /\ q' = q
  | MCreatePool u i cs, APool r u' i' cs' _ _ _ _ => r = false /\ u' = u /\ i' = i /\ cs' = cs
  | MCreateRangedPool u i cs _ _ _, APool r u' i' cs' _ _ _ _ => r = true /\ u' = u /\ i' = i /\ cs' = cs
  | MDeposit u i cs, ADeposit u' i' cs' _ => u' = u /\ i' = i /\ cs' = cs
  | MWithdraw u i d x, AWithdraw u' i' d' x' _ => u' = u /\ i' = i /\ d' = d /\ x' = x
  | MLimitOrder u i d od o dd _ a l, AOrder t u' i' d' od' o' dd' _ a' _ _ _ _ r => t = TLimit /\ u' = u /\ i' = i /\ d' = d /\ od' = od /\ dd' = dd /\ a' = a /\ o = o' + r
  | MMarketOrder u i d od o dd a l, AOrder t u' i' d' od' o' dd' _ a' _ _ _ _ r => t = TMarket /\ u' = u /\ i' = i /\ d' = d /\ od' = od /\ dd' = dd /\ a' = a /\ o = o' + r
  | MMMOrder u i d od o dd _ a l, AOrder t u' i' d' od' o' dd' _ a' _ _ _ _ r => t = TMM /\ u' = u /\ i' = i /\ d' = d /\ od' = od /\ dd' = dd /\ a' = a /\ o = o' + r
  | MCancelOrder u i j, ACancel u' i' j' => u' = u /\ i' = i /\ j' = j
  | MCancelAllOrders u ids, ACancelAll u' ids' _ => u' = u /\ ids' = ids
  | _, _ => False
  end.
(** Messages that only the bank or governance handle. *)
Definition quiet (m : msg) : Prop := match m with MUpdateParams _ | MSend _ _ _ => True | _ => False end.
