(** The accounts of the module: types/pair.go:70-89, types/pool.go:23-29, types/params.go:26-27, 41-50.
    The keeper model has them as constructors of [addr]; this file gives the names they are derived from. *)
From Coq Require Import String Ascii.
From Verif Require Import Base KeysModel.

Definition bytes_of (s : string) : bytes := map (fun c => Z.of_N (N_of_ascii c)) (list_ascii_of_string s).

(** ModuleName, types/keys.go:12; prefixes and splitter, types/params.go:42-44. *)
Definition module_name : bytes := bytes_of "dex".
Definition splitter : bytes := bytes_of "|".
(** strings.Join([]string{prefix, FormatUint(id, 10)}, splitter) *)
Definition numbered (prefix : string) (id : Z) : bytes := bytes_of prefix ++ splitter ++ digits 20 id [].

(** The accounts and the names given to DeriveAddress: PairEscrowAddress (pair.go:84-89),
    PoolReserveAddress (pool.go:23-29), GlobalEscrowAddress (params.go:49), the default collectors
    (params.go:26-27). *)
Inductive account := PairAccount (id : Z) | PoolAccount (id : Z) | RequestAccount | FeeAccount | DustAccount.
Definition name_of (a : account) : bytes :=
  match a with
  | PairAccount id => numbered "PairEscrowAddress" id
  | PoolAccount id => numbered "PoolReserveAddress" id
  | RequestAccount => bytes_of "GlobalEscrow"
  | FeeAccount => bytes_of "FeeCollector"
  | DustAccount => bytes_of "DustCollector"
  end.

(** address.Module and address.Hash, cosmos-sdk v0.50.6 types/address/hash.go (a dependency), for one
    derivation key; [sha] is SHA-256. *)
Definition preimage (sha : bytes -> bytes) (name : bytes) : bytes := sha (bytes_of "module") ++ (module_name ++ [0]) ++ name.
(** DeriveAddress with AddressType32Bytes, pair.go:72-75. *)
Definition address (sha : bytes -> bytes) (a : account) : bytes := sha (preimage sha (name_of a)).
(** The module account, authtypes.NewModuleAddress: crypto.AddressHash, the first 20 bytes. *)
Definition module_address (sha : bytes -> bytes) : bytes := firstn 20 (sha module_name).
