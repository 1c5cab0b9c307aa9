(** * Vocabulary for genesis export and import *)
From Coq Require Import List ZArith Bool.
From Verif Require Import Base Dec OrderModel KeeperModel KeeperSpec GenesisModel.
Import ListNotations.
Local Open Scope Z_scope.

(** [mm] lists the stored market making counters, each once. *)
Definition lists_counters (s : state) (mm : list ((addr * Z) * Z)) : Prop :=
  NoDup (map fst mm) /\ forall a i n, In ((a, i), n) mm <-> (st_mm s a i = n /\ n <> 0).

(** Two states hold the same data: equal field by field, indexes and counters entry by entry. *)
Record same_state (s s' : state) : Prop := mkSame {
  ss_params : st_params s = st_params s';
  ss_bank : st_bank s = st_bank s';
  ss_last_pair : st_last_pair s = st_last_pair s';
  ss_last_pool : st_last_pool s = st_last_pool s';
  ss_pairs : st_pairs s = st_pairs s';
  ss_pools : st_pools s = st_pools s';
  ss_deps : st_deps s = st_deps s';
  ss_wds : st_wds s = st_wds s';
  ss_orders : st_orders s = st_orders s';
  ss_pidx : forall b q, st_pidx s b q = st_pidx s' b q;
  ss_plidx : st_plidx s = st_plidx s';
  ss_oidx : forall a, st_oidx s a = st_oidx s' a;
  ss_mm : forall a i, st_mm s a i = st_mm s' a i;
  ss_height : st_height s = st_height s';
  ss_time : st_time s = st_time s' }.

(** Every stored deposit request offers some of both coins of its pool's pair. *)
Definition deposits_two_sided (s : state) : Prop :=
  forall k r p pr, mget (st_deps s) k = Some r -> get_pool s (dr_pool r) = Some p -> get_pair s (pl_pair p) = Some pr ->
    0 < amount_of (dr_coins r) (pr_base pr) /\ 0 < amount_of (dr_coins r) (pr_quote pr).
