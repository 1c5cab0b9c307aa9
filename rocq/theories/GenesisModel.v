(** * Genesis export, validation and import

    Models x/dex/types/genesis.go, x/dex/keeper/genesis.go and the Validate methods of the stored
    types (types/pair.go:46-68, types/pool.go:101-115, types/request.go:35-72, 102-131, 223-273).

    Simplifications.  Addresses and denominations are abstract and always well formed, so the bech32
    and denomination checks disappear; enumerations only have valid values; the pool coin
    denomination and the reserve address of a pool and the denomination of the pool coins minted by a
    deposit request are functions of the pool id.  Coin lists are not required to be sorted
    by denomination.  The pair lookup, pool-by-reserve and request-by-user indexes, which the state
    of KeeperModel does not have, are not restored here. *)
From Coq Require Import List ZArith Lia Bool.
From Verif Require Import Base Dec OrderModel KeeperModel.
Import ListNotations.
Local Open Scope Z_scope.

(** GenesisState (types/genesis.pb.go); [g_mm] lists (orderer, pair id) and the number of orders. *)
Record gstate := mkG {
  g_params : params; g_last_pair : Z; g_last_pool : Z; g_pairs : list pair; g_pools : list kpool;
  g_deps : list dreq; g_wds : list wreq; g_orders : list korder; g_mm : list ((addr * Z) * Z) }.

(** [unique key l]: the duplicate id checks made with maps and sets, genesis.go:36-39, 52-55, 74-81,
    95-102, 129-136. *)
Fixpoint unique {A} (key : A -> Z * Z) (l : list A) : bool :=
  match l with [] => true | x :: t => negb (existsb (fun y => key_eqb (key x) (key y)) t) && unique key t end.

(** pairMap and poolMap, genesis.go:28, 41. *)
Definition find_pair (l : list pair) (i : Z) : option pair := find (fun p => pr_id p =? i) l.
Definition find_pool (l : list kpool) (i : Z) : option kpool := find (fun p => pl_id p =? i) l.

(** Pair.Validate, types/pair.go:46-68, and genesis.go:30-35. *)
Definition pair_valid (g : gstate) (p : pair) : bool :=
  negb (pr_id p =? 0) && match pr_last_price p with Some x => 0 <? x | None => true end && negb (pr_batch p =? 0) &&
  (pr_id p <=? g_last_pair g).
(** Pool.Validate, types/pool.go:101-115, and genesis.go:43-51. *)
Definition pool_valid (g : gstate) (p : kpool) : bool :=
  negb (pl_id p =? 0) && negb (pl_pair p =? 0) && (pl_id p <=? g_last_pool g) && is_some (find_pair (g_pairs g) (pl_pair p)).
(** DepositRequest.Validate, types/request.go:35-72, and genesis.go:59-73. *)
Definition dep_valid (g : gstate) (r : dreq) : bool :=
  negb (dr_id r =? 0) && negb (dr_pool r =? 0) && negb (dr_height r =? 0) && valid_coins (dr_coins r) &&
  negb (Nat.eqb (length (dr_coins r)) 0) && (Nat.leb (length (dr_coins r)) 2) &&
  valid_coins (dr_accepted r) && (Nat.leb (length (dr_accepted r)) 2) &&
  forallb (fun c => negb (amount_of (dr_coins r) (fst c) =? 0)) (dr_accepted r) && (0 <=? dr_minted r) &&
  match find_pool (g_pools g) (dr_pool r) with
  | None => false
  | Some p =>
      match find_pair (g_pairs g) (pl_pair p) with
      | None => false
      | Some pr => negb ((amount_of (dr_coins r) (pr_base pr) =? 0) || (amount_of (dr_coins r) (pr_quote pr) =? 0))
      end
  end.
(** WithdrawRequest.Validate, types/request.go:102-131, and genesis.go:85-94. *)
Definition wd_valid (g : gstate) (r : wreq) : bool :=
  negb (wr_id r =? 0) && negb (wr_pool r =? 0) && negb (wr_height r =? 0) && (0 <=? wr_amt r) && negb (wr_amt r =? 0) &&
  valid_coins (wr_withdrawn r) && (Nat.leb (length (wr_withdrawn r)) 2) &&
  match find_pool (g_pools g) (wr_pool r) with
  | None => false
  | Some p => denom_eqb (wr_denom r) (PoolCoin (pl_id p))
  end.
(** Order.Validate, types/request.go:223-273, and genesis.go:106-128; [zero] is Go's zero time. *)
Definition order_valid (zero : Z) (g : gstate) (o : korder) : bool :=
  negb (ko_id o =? 0) && negb (ko_pair o =? 0) && negb (ko_height o =? 0) && (0 <=? ko_offer o) && negb (ko_offer o =? 0) &&
  (0 <=? ko_remaining o) && (0 <=? ko_received o) && (0 <? ko_price o) && (0 <? ko_amt o) && (0 <=? ko_open o) &&
  negb (ko_batch o =? 0) && negb (ko_expire o =? zero) &&
  match find_pair (g_pairs g) (ko_pair o) with
  | None => false
  | Some pr =>
      (ko_batch o <=? pr_batch pr) &&
      match ko_dir o with
      | Buy => denom_eqb (ko_offer_denom o) (pr_quote pr) && denom_eqb (ko_demand_denom o) (pr_base pr)
      | Sell => denom_eqb (ko_offer_denom o) (pr_base pr) && denom_eqb (ko_demand_denom o) (pr_quote pr)
      end
  end.

(** GenesisState.Validate, types/genesis.go:24-144. *)
Definition genesis_valid (zero : Z) (g : gstate) : bool :=
  valid_params (g_params g) &&
  forallb (pair_valid g) (g_pairs g) && unique (fun p => (pr_id p, 0)) (g_pairs g) &&
  forallb (pool_valid g) (g_pools g) && unique (fun p => (pl_id p, 0)) (g_pools g) &&
  forallb (dep_valid g) (g_deps g) && unique (fun r => (dr_pool r, dr_id r)) (g_deps g) &&
  forallb (wd_valid g) (g_wds g) && unique (fun r => (wr_pool r, wr_id r)) (g_wds g) &&
  forallb (order_valid zero g) (g_orders g) && unique (fun o => (ko_pair o, ko_id o)) (g_orders g) &&
  forallb (fun r => negb (snd r =? 0)) (g_mm g).

(** SetPair and SetPairIndex, keeper/genesis.go:18-23. *)
Definition import_pair (s : state) (p : pair) : state :=
  let s1 := put_pair s p in
  set_pidx s1 (fun a b => if denom_eqb a (pr_base p) && denom_eqb b (pr_quote p) then Some (pr_id p) else st_pidx s1 a b).
(** SetPool and SetPoolsByPairIndex, keeper/genesis.go:24-28. *)
Definition import_pool (s : state) (p : kpool) : state :=
  let s1 := put_pool s p in set_plidx s1 (mset (st_plidx s1) (pl_pair p, pl_id p) tt).
(** SetOrder and SetOrderIndex, keeper/genesis.go:37-40. *)
Definition import_order (s : state) (o : korder) : state := oidx_add (put_order s o) o.
(** SetNumMMOrders, keeper/genesis.go:41-44. *)
Definition import_mm (s : state) (r : (addr * Z) * Z) : state := set_mm_count s (fst (fst r)) (snd (fst r)) (snd r).

(** InitGenesis, keeper/genesis.go:11-45, on a chain whose module store is empty, whose bank is [b]
    and whose clock shows [h] and [t]; None is the panic on an invalid genesis. *)
Definition init_genesis (zero : Z) (b : bank) (h t : Z) (g : gstate) : option state :=
  if negb (genesis_valid zero g) then None
  else
    let s0 := set_last_pool (set_last_pair (init_state (g_params g) b h t) (g_last_pair g)) (g_last_pool g) in
    let s1 := fold_left import_pair (g_pairs g) s0 in
    let s2 := fold_left import_pool (g_pools g) s1 in
    let s3 := fold_left put_dep (g_deps g) s2 in
    let s4 := fold_left put_wd (g_wds g) s3 in
    let s5 := fold_left import_order (g_orders g) s4 in
    Some (fold_left import_mm (g_mm g) s5).

(** ExportGenesis, keeper/genesis.go:48-69.  The counters are stored under keys of orderer and pair
    and the state of KeeperModel has them as a function, so the list [mm] that IterateAllNumMMOrders
    produces is an argument. *)
Definition export_genesis (s : state) (mm : list ((addr * Z) * Z)) : gstate :=
  mkG (st_params s) (st_last_pair s) (st_last_pool s) (map snd (st_pairs s)) (map snd (st_pools s))
      (map snd (st_deps s)) (map snd (st_wds s)) (map snd (st_orders s)) mm.
