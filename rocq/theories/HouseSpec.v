(** Vocabulary of C90: what stays in the store, and how it leaves. *)
From Verif Require Import Base Dec OrderModel KeeperModel KeeperSpec.

(** Everything stored in [s] is still stored in [s'], under the same key, further on in its life at most. *)
Definition all_kept (s s' : state) : Prop :=
  (forall i j o, get_order s i j = Some o -> exists o', get_order s' i j = Some o' /\ order_later o o') /\
  (forall i j r, mget (st_deps s) (i, j) = Some r -> exists r', mget (st_deps s') (i, j) = Some r' /\ dep_later r r') /\
  (forall i j r, mget (st_wds s) (i, j) = Some r -> exists r', mget (st_wds s') (i, j) = Some r' /\ wd_later r r').

(** On the way from [c] to [c'] there is a moment at which [P] holds. *)
Definition at_some_moment Q (c c' : config) (P : state -> Prop) : Prop := exists c1, runs Q c c1 /\ runs Q c1 c' /\ P (snd c1).

(** Nothing but orders and requests (and the index of orders by orderer) and the clock differ. *)
Definition only_records (s s' : state) : Prop :=
  st_params s' = st_params s /\ st_bank s' = st_bank s /\ st_last_pair s' = st_last_pair s /\ st_last_pool s' = st_last_pool s /\ st_pairs s' = st_pairs s /\ st_pools s' = st_pools s /\
  st_pidx s' = st_pidx s /\ st_plidx s' = st_plidx s /\ st_mm s' = st_mm s.
