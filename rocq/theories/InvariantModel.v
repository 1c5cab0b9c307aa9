(** The module's own invariants, keeper/invariants.go.  Each function gives the "broken" result; the
    messages are not modelled.  RegisterInvariants (module.go:125) is empty, so that nothing runs
    them on the chain. *)
From Verif Require Import Base OrderModel MatchModel PoolModel KeeperModel.

(** Coins.IsAllGTE (cosmos-sdk types/coin.go): no coin of [cs] exceeds the balance.  The two early
    exits of the code, for empty arguments, give the same result because stored coins are positive. *)
Definition all_gte (balance : denom -> Z) (cs : coins) : bool := forallb (fun c => negb (balance (fst c) <? snd c)) cs.
(** coins = coins.Add(f(v)...) for every stored entry. *)
Definition add_up {V} (f : V -> coins) (m : amap V) : coins := fold_left (fun acc kv => coins_add acc (f (snd kv))) m [].

(** DepositCoinsEscrowInvariant, invariants.go:42-58. *)
Definition deposit_escrow_broken (s : state) : bool :=
  let owed := add_up (fun r => match dr_status r with RNotExecuted => dr_coins r | _ => [] end) (st_deps s) in
  negb (all_gte (bal (st_bank s) GlobalEscrow) owed).

(** PoolCoinEscrowInvariant, invariants.go:63-79. *)
Definition pool_coin_escrow_broken (s : state) : bool :=
  let owed := add_up (fun r => match wr_status r with RNotExecuted => [(wr_denom r, wr_amt r)] | _ => [] end) (st_wds s) in
  negb (all_gte (bal (st_bank s) GlobalEscrow) owed).

(** RemainingOfferCoinEscrowInvariant, invariants.go:84-111; Coins.Add drops zero coins.  OrderStatus
    ShouldBeDeleted is types/request.go:361-363. *)
Definition remaining_offer_coins (o : korder) : coins :=
  if o_terminal (ko_status o) then [] else if ko_remaining o =? 0 then [] else [(ko_offer_denom o, ko_remaining o)].
Definition offer_escrow_broken (s : state) : bool :=
  existsb (fun kv => let pr := snd kv in
     negb (all_gte (bal (st_bank s) (PairEscrow (pr_id pr))) (add_up remaining_offer_coins (mprefix (st_orders s) (pr_id pr))))) (st_pairs s).

(** PoolStatusInvariant, invariants.go:115-137. *)
Definition pool_status_broken (s : state) : bool :=
  existsb (fun kv => negb (pl_disabled (snd kv)) && (supply (st_bank s) (PoolCoin (pl_id (snd kv))) =? 0)) (st_pools s).

(** NumMMOrdersInvariant, invariants.go:141-186.  [records] is what IterateAllNumMMOrders yields;
    counters are deleted when they reach zero (swap.go:514-521), so that it lists the nonzero ones. *)
Definition mm_order_of (a : addr) (o : korder) : bool :=
  match ko_type o with TMM => negb (o_terminal (ko_status o)) && addr_eqb (ko_owner o) a | _ => false end.
Definition count_mm (s : state) (f : korder -> bool) : Z := Z.of_nat (length (filter (fun kv => f (snd kv)) (st_orders s))).
Definition num_mm_broken (s : state) (records : list ((addr * Z) * Z)) : bool :=
  existsb (fun r => let '((a, i), n) := r in
     (count_mm s (mm_order_of a) =? 0) ||
     (count_mm s (fun o => mm_order_of a o && (ko_pair o =? i)) =? 0) ||
     negb (n =? count_mm s (fun o => mm_order_of a o && (ko_pair o =? i)))) records.

(** AllInvariants, invariants.go:21-37. *)
Definition all_invariants_broken (s : state) (records : list ((addr * Z) * Z)) : bool :=
  deposit_escrow_broken s || pool_coin_escrow_broken s || offer_escrow_broken s || pool_status_broken s || num_mm_broken s records.
