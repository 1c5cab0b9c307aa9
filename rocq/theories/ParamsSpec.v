(** Vocabulary of C89: parameters that make sense, and which parameters a history puts in force. *)
From Verif Require Import Base Dec OrderModel MatchModel MatchProofs KeeperModel KeeperSpec.

(** Positive amounts of different coins. *)
Definition proper_coins (cs : coins) : Prop := Forall (fun c => 0 < snd c) cs /\ NoDup (map fst cs).
Definition sound_params (p : params) : Prop :=
  0 < pm_batch_size p /\ 0 <= pm_tick_prec p /\ 0 < pm_min_supply p /\ proper_coins (pm_pair_fee p) /\ proper_coins (pm_pool_fee p) /\
  0 <= pm_min_deposit p /\ 0 <= pm_price_ratio p /\ 0 < pm_max_mm p /\ 0 <= pm_max_lifespan p /\ 0 <= pm_withdraw_fee p /\ 0 <= pm_max_pools p.

(** [governed Q p c]: [c] is reached by a history in which [p] are the parameters of genesis or, if any
    UpdateParams was accepted, those of the last one. *)
Inductive governed (Q : params -> Prop) : params -> config -> Prop :=
| Gov_genesis p b h t : genesis Q (init_state p b h t) -> governed Q p (Between, init_state p b h t)
| Gov_update p0 p s s' : governed Q p0 (InBlock, s) -> Q p -> deliver s (MUpdateParams p) = Some s' -> governed Q p (InBlock, s')
| Gov_begin p s t : governed Q p (Between, s) -> st_time s <= t -> governed Q p (InBlock, begin_block s t)
| Gov_msg p s m s' : governed Q p (InBlock, s) -> (forall p', m <> MUpdateParams p') -> deliver s m = Some s' -> governed Q p (InBlock, s')
| Gov_end p iter s s' : governed Q p (InBlock, s) -> is_perm_iter iter -> end_block iter s = Some s' -> governed Q p (Between, s').

(** The two states differ at most in the parameters. *)
Definition only_params (s s' : state) : Prop :=
  st_bank s' = st_bank s /\ st_last_pair s' = st_last_pair s /\ st_last_pool s' = st_last_pool s /\ st_pairs s' = st_pairs s /\ st_pools s' = st_pools s /\
  st_deps s' = st_deps s /\ st_wds s' = st_wds s /\ st_orders s' = st_orders s /\ st_pidx s' = st_pidx s /\ st_plidx s' = st_plidx s /\ st_oidx s' = st_oidx s /\
  st_mm s' = st_mm s /\ st_height s' = st_height s /\ st_time s' = st_time s.
