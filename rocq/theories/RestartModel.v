(** Genesis as the application calls it: x/dex/module/module.go:127-140 with x/dex/module/genesis.go.
    These are not the functions of keeper/genesis.go (GenesisModel): nothing outside the tests calls
    those.  Decoding of JSON is left out. *)
From Verif Require Import Base Dec OrderModel KeeperModel GenesisModel.

(** DefaultGenesis, types/genesis.go:8-20, with the given parameters. *)
Definition bare_genesis (p : params) : gstate := mkG p 0 0 [] [] [] [] [] [].
(** ExportGenesis, module/genesis.go:17-24: the default genesis with the current parameters. *)
Definition app_export (s : state) : gstate := bare_genesis (st_params s).
(** InitGenesis, module/genesis.go:11-14: stores the parameters and nothing else of the file; None is
    the panic of SetParamSet on invalid parameters.  The module store is empty; [b] are the balances of
    the new chain, [h] and [t] its clock. *)
Definition app_init (b : bank) (h t : Z) (g : gstate) : option state :=
  if valid_params (g_params g) then Some (init_state (g_params g) b h t) else None.
(** Export of a chain and start of a new one from the exported file; the bank module restores all
    balances and supplies (a dependency, not in /repo). *)
Definition restart (h t : Z) (s : state) : option state := app_init (st_bank s) h t (app_export s).
