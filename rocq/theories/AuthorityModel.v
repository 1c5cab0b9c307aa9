(** Who may change the parameters by message: keeper/keeper.go:29-58 and keeper/msg_server.go:133-142.
    Addresses are strings; [ok] is sdk.AccAddressFromBech32 succeeding (a dependency). *)
From Coq Require Import String.
From Verif Require Import Base Dec OrderModel KeeperModel.

(** The field of Keeper that matters here (keeper.go:17-26). *)
Record keeper := mkKeeper { k_authority : string }.
(** NewKeeper, keeper.go:29-53: checks the authority (None: panics) and returns Keeper{cdc, storeService,
    paramSpace, accountKeeper, bankKeeper}; the field authority, not being listed, is the empty string. *)
Definition new_keeper (ok : string -> bool) (authority : string) : option keeper :=
  if ok authority then Some (mkKeeper EmptyString) else None.
(** GetAuthority, keeper.go:56-58. *)
Definition get_authority (k : keeper) : string := k_authority k.
(** UpdateParams, msg_server.go:133-142; [sender] is req.Authority, the signer of the message
    (proto/defund/dex/tx.proto:276).  SetParamSet panics on invalid parameters. *)
Definition update_params (k : keeper) (s : state) (sender : string) (p : params) : option state :=
  if negb (String.eqb (get_authority k) sender) then None
  else if valid_params p then Some (set_params s p) else None.
