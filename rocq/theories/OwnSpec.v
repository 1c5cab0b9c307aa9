(** Who signs a message, and histories in which one user signs nothing. *)
From Verif Require Import Base Dec OrderModel KeeperModel MatchModel MatchSpec MatchProofs KeeperSpec.

(** The account that signs a message (GetSigners, types/msgs.go); parameter changes are signed by the
    governance account. *)
Definition signer (m : msg) : option Z :=
  match m with
  | MCreatePair u _ _ | MCreatePool u _ _ | MCreateRangedPool u _ _ _ _ _ | MDeposit u _ _ | MWithdraw u _ _ _
  | MLimitOrder u _ _ _ _ _ _ _ _ | MMarketOrder u _ _ _ _ _ _ _ | MMMOrder u _ _ _ _ _ _ _ _
  | MCancelOrder u _ _ | MCancelAllOrders u _ | MSend u _ _ => Some u
  | MUpdateParams _ => None
  end.
Definition is_cancel (m : msg) : bool := match m with MCancelOrder _ _ _ | MCancelAllOrders _ _ => true | _ => false end.
Definition pair_escrow (a : addr) : Prop := exists i, a = PairEscrow i.

(** Histories in which [u] signs no message. *)
Inductive quiet_runs (Q : params -> Prop) (u : Z) : config -> config -> Prop :=
| Quiet_refl c : quiet_runs Q u c c
| Quiet_begin c s t : quiet_runs Q u c (Between, s) -> st_time s <= t -> quiet_runs Q u c (InBlock, begin_block s t)
| Quiet_msg c s m s' : quiet_runs Q u c (InBlock, s) -> deliver s m = Some s' -> (forall p, m = MUpdateParams p -> Q p) -> signer m <> Some u -> quiet_runs Q u c (InBlock, s')
| Quiet_end c iter s s' : quiet_runs Q u c (InBlock, s) -> is_perm_iter iter -> end_block iter s = Some s' -> quiet_runs Q u c (Between, s').
