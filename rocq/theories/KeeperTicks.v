(** Every order price and every last price is a tick, as long as the tick precision has not been lowered. *)
From Verif Require Import Base Dec TickModel TickSpec TickProofs OrderModel MatchModel PoolModel KeeperModel KeeperLib KeeperSpec KeeperMicro KeeperBank KeeperSteps KeeperTrade KeeperInv KeeperHist TickOrders.

Definition ticks_ok (n : Z) (s : state) : Prop :=
  (forall k o, mget (st_orders s) k = Some o -> is_tick n (ko_price o)) /\
  (forall k p l, mget (st_pairs s) k = Some p -> pr_last_price p = Some l -> is_tick n l).

Lemma ticks_init n p b h t : ticks_ok n (init_state p b h t).
Proof. split; intros; discriminate. Qed.

Lemma ticks_put_order n s o : ticks_ok n s -> is_tick n (ko_price o) -> ticks_ok n (put_order s o).
Proof. intros [A B] T. split; [|exact B]. cbn [st_orders put_order set_orders]. intros k o'. rewrite mget_mset. destruct (key_eqb _ _); [intros E; injection E as <-; exact T|apply A]. Qed.
Lemma ticks_put_pair n s p : ticks_ok n s -> (forall l, pr_last_price p = Some l -> is_tick n l) -> ticks_ok n (put_pair s p).
Proof. intros [A B] T. split; [exact A|]. cbn [st_pairs put_pair set_pairs]. intros k p' l. rewrite mget_mset. destruct (key_eqb _ _); [intros E; injection E as <-; apply T|apply B]. Qed.

Lemma ticks_mic n (Q : ctl) s s' : mic Q s s' -> str s -> 0 <= pm_tick_prec (st_params s) <= n -> 0 <= pm_price_ratio (st_params s) < P18 -> ticks_ok n s -> ticks_ok n s'.
Proof.
  intros M S Hn Hr X. destruct M; norm_send; try exact X.
  - unfold add_pair. cbn zeta. apply (ticks_put_pair n (set_last_pair s (st_last_pair s + 1))); [exact X|]. intros l E. discriminate E.
  - pose proof (tick_finer _ _ _ Hn (H7 (proj1 Hn) Hr)) as T. pose proof (fun l => proj2 X _ pr l H) as L.
    unfold add_order. cbn zeta.
    assert (Y : ticks_ok n (put_order (put_pair (set_bank s b) (mkPair (pr_id pr) (pr_base pr) (pr_quote pr) (pr_last_order pr + 1) (pr_last_price pr) (pr_batch pr)))
       (mkKOrder typ (pr_last_order pr + 1) (pr_id pr) (st_height s) (User u) d (offer_denom_of pr d) (offer_coin_amount d price amt) (offer_coin_amount d price amt) (demand_denom_of pr d) 0
                   price amt amt (pr_batch pr) (st_time s + lifespan) ONotExecuted))).
    { apply ticks_put_order; [|exact T]. apply (ticks_put_pair n (set_bank s b)); [exact X|]. intros l El. exact (L l El). }
    destruct typ; exact Y.
  - apply ticks_put_order; [exact X|]. exact (proj1 X _ _ H).
  - destruct (finish_order_spec _ _ _ _ H2 H0) as (b & _ & ->). cbn zeta.
    assert (Y : ticks_ok n (put_order (set_bank s b) (ko_with_status o st))) by (apply (ticks_put_order n (set_bank s b)); [exact X|exact (proj1 X _ _ H)]).
    destruct (ko_type o); exact Y.
  - apply ticks_put_pair; [exact X|]. cbn [pr_last_price]. apply (H2 n (proj2 Hn) (proj1 X)). intros l El. exact (proj2 X _ _ l H El).
  - destruct (delete_outdated_eq s) as (f & -> & _). destruct X as [A B]. split; [|exact B]. intros k o H7.
    cbn [st_orders set_wds set_oidx set_orders set_deps] in H7. rewrite mget_filter in H7 by (apply msorted_NoDup; apply (i_orders_sorted _ S)).
    destruct (mget (st_orders s) k) eqn:E; [|discriminate H7]. destruct (negb _); [|discriminate H7]. injection H7 as <-. exact (A _ _ E).
Qed.

Lemma reach_ticks n (Q : params -> Prop) c : (forall p, Q p -> pm_tick_prec p <= n) -> reach (sane Q) c -> ticks_ok n (snd c).
Proof.
  intros HQ R. apply (reach_state Q (ticks_ok n)) with (c := c); [intros; apply ticks_init| |exact R].
  intros s s' (st & M) I X. pose proof (v_params _ _ I) as (V & (Qp & Rr)). unfold sane_ratio in Rr.
  assert (0 <= pm_tick_prec (st_params s) /\ 0 <= pm_price_ratio (st_params s)) by (unfold valid_params in V; rewrite !andb_true_iff in V; lia).
  apply (ticks_mic n _ s s' M (v_str _ _ I)); [|lia|exact X]. specialize (HQ _ Qp). lia.
Qed.
