(** Specification vocabulary for C35 and C43: what the escrow of a pair covers. *)
From Verif Require Import Base Dec OrderModel MatchModel PoolModel KeeperModel KeeperSpec.

(** The escrow of pair [i] holds what it owes to the live orders in coin [d]. *)
Definition covered (s : state) (i : Z) (d : denom) : Prop := orders_owed s i d <= bal (st_bank s) (PairEscrow i) d.

(** Nothing is offered for sale below price one in pair [i]: no live sell order is, and either the
    pair has no active pool or its lowest allowed price is at least one. *)
Definition sells_above_one (s : state) (i : Z) : Prop :=
  (forall j o, get_order s i j = Some o -> live o = true -> ko_dir o = Sell -> P18 <= ko_price o) /\
  ((forall k p, get_pool s k = Some p -> pl_pair p = i -> pl_disabled p = true) \/
   (forall pr, get_pair s i = Some pr -> exists last lo hi, pr_last_price pr = Some last /\
      price_limits last (pm_price_ratio (st_params s)) (pm_tick_prec (st_params s)) = Ok (lo, hi) /\ P18 <= lo)).

(** Histories in which every end blocker starts in a state satisfying [P]. *)
Inductive runs_where (Q : params -> Prop) (P : state -> Prop) : config -> config -> Prop :=
| Where_refl c : runs_where Q P c c
| Where_begin c s t : runs_where Q P c (Between, s) -> step Q (Between, s) (InBlock, t) -> runs_where Q P c (InBlock, t)
| Where_msg c s t : runs_where Q P c (InBlock, s) -> step Q (InBlock, s) (InBlock, t) -> runs_where Q P c (InBlock, t)
| Where_end c s t : runs_where Q P c (InBlock, s) -> P s -> step Q (InBlock, s) (Between, t) -> runs_where Q P c (Between, t).
