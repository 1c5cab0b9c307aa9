(** Store keys (x/dex/types/keys.go) and pool coin denominations (x/dex/types/pool.go).
    A byte is a Z in [0,256), a byte slice or string is a list of bytes.  Results that may panic
    are options.  Not modelled: slice capacity (Go allows a slice bound up to the capacity; here up
    to the length), and aliasing of the package level prefixes (their capacity is 1, append copies). *)
From Verif Require Import Base.

(** Go's []byte. *)
Definition bytes := list Z.

(** sdk.Uint64ToBigEndian (cosmos-sdk types/utils.go): [k] bytes, most significant first. *)
Fixpoint be (k : nat) (n : Z) : bytes :=
  match k with O => [] | S k => be k (n / 256) ++ [n mod 256] end.
Definition be8 (n : Z) : bytes := be 8 n.

(** sdk.BigEndianToUint64: 0 for an empty slice, else the first 8 bytes; panics on 1..7 bytes. *)
Definition un (l : bytes) : Z := fold_left (fun a b => a * 256 + b) l 0.
Definition un8 (l : bytes) : option Z :=
  match l with [] => Some 0 | _ => if (length l <? 8)%nat then None else Some (un (firstn 8 l)) end.

(** LengthPrefixString, keys.go:234-241: byte(len) wraps. *)
Definition lp (s : bytes) : bytes :=
  match s with [] => [] | _ => (Z.of_nat (length s) mod 256) :: s end.
(** address.MustLengthPrefix (cosmos-sdk types/address/store_key.go): panics above 255 bytes. *)
Definition alp (a : bytes) : option bytes :=
  match a with [] => Some [] | _ => if 255 <? Z.of_nat (length a) then None else Some (Z.of_nat (length a) :: a) end.

(** keys.go:24-44 *)
Definition LastPairIdKey : bytes := [160].
Definition LastPoolIdKey : bytes := [161].
Definition PairKeyPrefix : bytes := [165].
Definition PairIndexKeyPrefix : bytes := [166].
Definition PairsByDenomsIndexKeyPrefix : bytes := [167].
Definition PoolKeyPrefix : bytes := [171].
Definition PoolByReserveAddressIndexKeyPrefix : bytes := [172].
Definition PoolsByPairIndexKeyPrefix : bytes := [173].
Definition DepositRequestKeyPrefix : bytes := [176].
Definition DepositRequestIndexKeyPrefix : bytes := [180].
Definition WithdrawRequestKeyPrefix : bytes := [177].
Definition WithdrawRequestIndexKeyPrefix : bytes := [181].
Definition OrderKeyPrefix : bytes := [178].
Definition OrderIndexKeyPrefix : bytes := [179].
Definition NumMMOrdersKeyPrefix : bytes := [183].
Definition ParamsKey : bytes := [112; 95; 100; 101; 120].   (* "p_dex" *)

(** Plumbing: a panic inside a key function is [None]. *)
Definition omap {A B} (f : A -> B) (o : option A) : option B := match o with Some a => Some (f a) | None => None end.

(** keys.go:47-153, one definition per function *)
Definition pair_key (id : Z) : bytes := PairKeyPrefix ++ be8 id.
Definition pair_index_key (b q : bytes) : bytes := (PairIndexKeyPrefix ++ lp b) ++ lp q.
Definition pairs_by_denoms_key (a b : bytes) (id : Z) : bytes := ((PairsByDenomsIndexKeyPrefix ++ lp a) ++ lp b) ++ be8 id.
Definition pairs_by_denom_prefix (a : bytes) : bytes := PairsByDenomsIndexKeyPrefix ++ lp a.
Definition pairs_by_denoms_prefix (a b : bytes) : bytes := (PairsByDenomsIndexKeyPrefix ++ lp a) ++ lp b.
Definition pool_key (id : Z) : bytes := PoolKeyPrefix ++ be8 id.
Definition pool_by_reserve_key (a : bytes) : option bytes := omap (fun x => PoolByReserveAddressIndexKeyPrefix ++ x) (alp a).
Definition pools_by_pair_key (pair pool : Z) : bytes := (PoolsByPairIndexKeyPrefix ++ be8 pair) ++ be8 pool.
Definition pools_by_pair_prefix (pair : Z) : bytes := PoolsByPairIndexKeyPrefix ++ be8 pair.
Definition deposit_key (pool id : Z) : bytes := (DepositRequestKeyPrefix ++ be8 pool) ++ be8 id.
Definition deposit_index_key (a : bytes) (pool id : Z) : option bytes :=
  omap (fun x => ((DepositRequestIndexKeyPrefix ++ x) ++ be8 pool) ++ be8 id) (alp a).
Definition deposit_index_prefix (a : bytes) : option bytes := omap (fun x => DepositRequestIndexKeyPrefix ++ x) (alp a).
Definition withdraw_key (pool id : Z) : bytes := (WithdrawRequestKeyPrefix ++ be8 pool) ++ be8 id.
Definition withdraw_index_key (a : bytes) (pool id : Z) : option bytes :=
  omap (fun x => ((WithdrawRequestIndexKeyPrefix ++ x) ++ be8 pool) ++ be8 id) (alp a).
Definition withdraw_index_prefix (a : bytes) : option bytes := omap (fun x => WithdrawRequestIndexKeyPrefix ++ x) (alp a).
Definition order_key (pair id : Z) : bytes := (OrderKeyPrefix ++ be8 pair) ++ be8 id.
Definition orders_by_pair_prefix (pair : Z) : bytes := OrderKeyPrefix ++ be8 pair.
Definition order_index_key (a : bytes) (pair id : Z) : option bytes :=
  omap (fun x => ((OrderIndexKeyPrefix ++ x) ++ be8 pair) ++ be8 id) (alp a).
Definition order_index_prefix (a : bytes) : option bytes := omap (fun x => OrderIndexKeyPrefix ++ x) (alp a).
Definition num_mm_key (a : bytes) (pair : Z) : option bytes := omap (fun x => (NumMMOrdersKeyPrefix ++ x) ++ be8 pair) (alp a).

(** slice expression key[lo:hi] and key[lo:], indexing key[i]; lo, hi, i >= 0 *)
Definition slice (l : bytes) (lo hi : Z) : option bytes :=
  if (lo <=? hi) && (hi <=? Z.of_nat (length l)) then Some (firstn (Z.to_nat (hi - lo)) (skipn (Z.to_nat lo) l)) else None.
Definition slice_from (l : bytes) (lo : Z) : option bytes := slice l lo (Z.of_nat (length l)).
Definition byte_at (l : bytes) (i : Z) : option Z := nth_error l (Z.to_nat i).
Definition obind {A B} (o : option A) (f : A -> option B) : option B := match o with Some a => f a | None => None end.
Notation "'get' x <- e ; k" := (obind e (fun x => k)) (at level 200, x name, e at level 100, k at level 200).
Fixpoint has_prefix (p k : bytes) : bool :=
  match p, k with [], _ => true | x :: p, y :: k => (x =? y) && has_prefix p k | _ :: _, [] => false end.
(** constant plus byte: untyped constants take the byte type, so these sums wrap at 256 *)
Definition u8 (n : Z) : Z := n mod 256.

(** ParsePairsByDenomsIndexKey, keys.go:156-168 *)
Definition parse_pairs_by_denoms (key : bytes) : option (bytes * bytes * Z) :=
  if has_prefix PairsByDenomsIndexKeyPrefix key then
    get la <- byte_at key 1;
    get a <- slice key 2 (u8 (2 + la));
    get lb <- byte_at key (u8 (2 + la));
    get b <- slice key (u8 (3 + la)) (u8 (3 + la + lb));
    get r <- slice_from key (u8 (3 + la + lb));
    get id <- un8 r;
    Some (a, b, id)
  else None.
(** ParsePoolsByPairIndexKey, keys.go:171-179 (bytesLen is an int: no wrap) *)
Definition parse_pools_by_pair (key : bytes) : option Z :=
  if has_prefix PoolsByPairIndexKeyPrefix key then get r <- slice_from key (1 + 8); un8 r else None.
(** ParseDepositRequestIndexKey, ParseWithdrawRequestIndexKey, ParseOrderIndexKey, keys.go:182-218 *)
Definition parse_index (prefix key : bytes) : option (bytes * Z * Z) :=
  if has_prefix prefix key then
    get la <- byte_at key 1;
    get a <- slice key 2 (u8 (2 + la));
    get r1 <- slice key (u8 (2 + la)) (u8 (2 + la + 8));
    get x <- un8 r1;
    get r2 <- slice_from key (u8 (2 + la + 8));
    get y <- un8 r2;
    Some (a, x, y)
  else None.
Definition parse_deposit_index := parse_index DepositRequestIndexKeyPrefix.
Definition parse_withdraw_index := parse_index WithdrawRequestIndexKeyPrefix.
Definition parse_order_index := parse_index OrderIndexKeyPrefix.
(** ParseNumMMOrdersKey, keys.go:221-230 *)
Definition parse_num_mm (key : bytes) : option (bytes * Z) :=
  if has_prefix NumMMOrdersKeyPrefix key then
    get la <- byte_at key 1;
    get a <- slice key 2 (u8 (2 + la));
    get r <- slice_from key (u8 (2 + la));
    get x <- un8 r;
    Some (a, x)
  else None.

(** ** pool coin denominations *)
(** the decimal digits of a number, most significant first (fmt %d on uint64) *)
Fixpoint digits (fuel : nat) (n : Z) (acc : bytes) : bytes :=
  match fuel with
  | O => acc
  | S k => let acc := (48 + n mod 10) :: acc in if n / 10 =? 0 then acc else digits k (n / 10) acc
  end.
Definition pool_word : bytes := [112; 111; 111; 108].   (* "pool" *)
(** PoolCoinDenom, pool.go:32-34; 20 digits suffice for 64 bits *)
Definition pool_coin_denom (id : Z) : bytes := pool_word ++ digits 20 id [].

Definition is_digit (c : Z) : bool := (48 <=? c) && (c <=? 57).
(** the submatch of the pattern of pool.go:19: "pool", a digit 1-9, then digits 0-9 up to the end *)
Definition pool_submatch (s : bytes) : option bytes :=
  if has_prefix pool_word s then
    match skipn 4 s with
    | c :: r => if (49 <=? c) && (c <=? 57) && forallb is_digit r then Some (c :: r) else None
    | [] => None
    end
  else None.
(** strconv.ParseUint(s, 10, 64) on a string of digits: error when the value does not fit *)
Definition parse_uint (s : bytes) : option Z :=
  let v := fold_left (fun a c => a * 10 + (c - 48)) s 0 in
  if v <? 2 ^ 64 then Some v else None.
(** ParsePoolCoinDenom, pool.go:37-47 *)
Definition parse_pool_coin_denom (s : bytes) : option Z := get c <- pool_submatch s; parse_uint c.
