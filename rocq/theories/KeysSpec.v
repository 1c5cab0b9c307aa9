(** What the store holds and how it is scanned: specification side of C45. *)
From Verif Require Import Base KeysModel.

(** everything the module keeps in its store *)
Inductive entity :=
| LastPairId | LastPoolId | Params
| Pair (id : Z)                                  (* a pair *)
| PairIndex (base quote : bytes)                 (* pair id by its denominations *)
| PairLookup (a b : bytes) (id : Z)              (* pair by either denomination *)
| Pool (id : Z)
| PoolByReserve (reserve : bytes)
| PoolOfPair (pair pool : Z)
| Deposit (pool id : Z)
| DepositOf (depositor : bytes) (pool id : Z)
| Withdraw (pool id : Z)
| WithdrawOf (withdrawer : bytes) (pool id : Z)
| Order (pair id : Z)
| OrderOf (orderer : bytes) (pair id : Z)
| NumMM (orderer : bytes) (pair : Z).

Definition key_of (e : entity) : option bytes :=
  match e with
  | LastPairId => Some LastPairIdKey | LastPoolId => Some LastPoolIdKey | Params => Some ParamsKey
  | Pair id => Some (pair_key id)
  | PairIndex b q => Some (pair_index_key b q)
  | PairLookup a b id => Some (pairs_by_denoms_key a b id)
  | Pool id => Some (pool_key id)
  | PoolByReserve a => pool_by_reserve_key a
  | PoolOfPair p id => Some (pools_by_pair_key p id)
  | Deposit p id => Some (deposit_key p id)
  | DepositOf a p id => deposit_index_key a p id
  | Withdraw p id => Some (withdraw_key p id)
  | WithdrawOf a p id => withdraw_index_key a p id
  | Order p id => Some (order_key p id)
  | OrderOf a p id => order_index_key a p id
  | NumMM a p => num_mm_key a p
  end.

(** ids are 64 bit; denominations and addresses are non-empty and at most 255 bytes long (the SDK
    allows denominations of 3 to 128 and addresses of up to 255 bytes) *)
Definition id_ok (n : Z) : Prop := 0 <= n < 2 ^ 64.
Definition name_ok (s : bytes) : Prop := s <> [] /\ Z.of_nat (length s) <= 255.
Definition entity_ok (e : entity) : Prop :=
  match e with
  | LastPairId | LastPoolId | Params => True
  | Pair id | Pool id => id_ok id
  | PairIndex b q => name_ok b /\ name_ok q
  | PairLookup a b id => name_ok a /\ name_ok b /\ id_ok id
  | PoolByReserve a => name_ok a
  | PoolOfPair p id | Deposit p id | Withdraw p id | Order p id => id_ok p /\ id_ok id
  | DepositOf a p id | WithdrawOf a p id | OrderOf a p id => name_ok a /\ id_ok p /\ id_ok id
  | NumMM a p => name_ok a /\ id_ok p
  end.

(** the prefix scans of keeper/store.go and keeper/grpc_query.go, and what each is meant to yield *)
Inductive scan :=
| AllPairs | PairsByDenom (a : bytes) | PairsByDenoms (a b : bytes) | AllPools | PoolsByPair (pair : Z)
| AllDeposits | DepositsBy (a : bytes) | AllWithdraws | WithdrawsBy (a : bytes)
| AllOrders | OrdersByPair (pair : Z) | OrdersBy (a : bytes) | AllNumMM.
Definition scan_prefix (s : scan) : option bytes :=
  match s with
  | AllPairs => Some PairKeyPrefix
  | PairsByDenom a => Some (pairs_by_denom_prefix a)
  | PairsByDenoms a b => Some (pairs_by_denoms_prefix a b)
  | AllPools => Some PoolKeyPrefix
  | PoolsByPair p => Some (pools_by_pair_prefix p)
  | AllDeposits => Some DepositRequestKeyPrefix
  | DepositsBy a => deposit_index_prefix a
  | AllWithdraws => Some WithdrawRequestKeyPrefix
  | WithdrawsBy a => withdraw_index_prefix a
  | AllOrders => Some OrderKeyPrefix
  | OrdersByPair p => Some (orders_by_pair_prefix p)
  | OrdersBy a => order_index_prefix a
  | AllNumMM => Some NumMMOrdersKeyPrefix
  end.
Definition scan_ok (s : scan) : Prop :=
  match s with
  | PairsByDenom a | DepositsBy a | WithdrawsBy a | OrdersBy a => name_ok a
  | PairsByDenoms a b => name_ok a /\ name_ok b
  | PoolsByPair p | OrdersByPair p => id_ok p
  | _ => True
  end.
Definition yields (s : scan) (e : entity) : Prop :=
  match s, e with
  | AllPairs, Pair _ | AllPools, Pool _ | AllDeposits, Deposit _ _ | AllWithdraws, Withdraw _ _ | AllOrders, Order _ _ | AllNumMM, NumMM _ _ => True
  | PairsByDenom a, PairLookup a' _ _ => a = a'
  | PairsByDenoms a b, PairLookup a' b' _ => a = a' /\ b = b'
  | PoolsByPair p, PoolOfPair p' _ => p = p'
  | DepositsBy a, DepositOf a' _ _ => a = a'
  | WithdrawsBy a, WithdrawOf a' _ _ => a = a'
  | OrdersByPair p, Order p' _ => p = p'
  | OrdersBy a, OrderOf a' _ _ => a = a'
  | _, _ => False
  end.
Definition starts_with (p k : bytes) : Prop := exists r, k = p ++ r.

(** byte-wise order of the store iterators *)
Fixpoint lex_lt (a b : bytes) : Prop :=
  match a, b with
  | _, [] => False
  | [], _ :: _ => True
  | x :: a, y :: b => x < y \/ x = y /\ lex_lt a b
  end.

(** Reading an index key back: what the parser for the key of [e] must return on [k] (no parser exists for the other kinds). *)
Definition reads_back (e : entity) (k : bytes) : Prop :=
  match e with
  | PairLookup a b id => parse_pairs_by_denoms k = Some (a, b, id)
  | PoolOfPair _ id => parse_pools_by_pair k = Some id
  | DepositOf a p id => parse_deposit_index k = Some (a, p, id)
  | WithdrawOf a p id => parse_withdraw_index k = Some (a, p, id)
  | OrderOf a p id => parse_order_index k = Some (a, p, id)
  | NumMM a p => parse_num_mm k = Some (a, p)
  | _ => True
  end.
(** the lengths for which the one-byte offsets of the parsers do not wrap *)
Definition short (e : entity) : Prop :=
  match e with
  | PairLookup a b _ => Z.of_nat (length a) + Z.of_nat (length b) <= 252
  | DepositOf a _ _ | WithdrawOf a _ _ | OrderOf a _ _ => Z.of_nat (length a) <= 245
  | NumMM a _ => Z.of_nat (length a) <= 253
  | _ => True
  end.
(** lengths the SDK accepts for a denomination *)
Definition denom_length (s : bytes) : Prop := 3 <= Z.of_nat (length s) <= 128.
