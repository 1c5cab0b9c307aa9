(** C65: prices in the store are ticks. *)
From Verif Require Import Base Dec TickModel TickSpec TickProofs OrderModel MatchModel PoolModel KeeperModel KeeperSpec KeeperMicro KeeperHist KeeperTicks KeeperExample.

(** ** C65: if the tick precision has never been above [n], the price of every stored order and the
    last price of every pair is a tick of precision [n], in every reachable state.  With a fixed
    precision this is the grid the module uses for new orders. *)
Theorem C65_ticks : forall (Q : params -> Prop) n c, (forall p, Q p -> pm_tick_prec p <= n) -> reach (sane Q) c ->
  (forall i j o, get_order (snd c) i j = Some o -> is_tick n (ko_price o)) /\
  (forall i p l, get_pair (snd c) i = Some p -> pr_last_price p = Some l -> is_tick n l).
Proof.
  intros Q n c HQ R. destruct (reach_ticks n Q c HQ R) as [A B]. split; [intros i j o; apply A|intros i p l; apply B].
Qed.
Print Assumptions C65_ticks.

(** The bound is needed: an order placed before governance lowers the precision keeps its price,
    which is then off the grid (and can become the last price). *)
Definition coarse : params := mkParams 1 0 (Derived 1) (Derived 2) 1000000000000 [(Coin 9, 1000000)] [(Coin 9, 1000000)] 1000000 (P18 / 10) 15 86400 0 20.
Definition fine_order : list action :=
  [ABegin 5; AMsg (MCreatePair 1 (Coin 1) (Coin 2)); AMsg (MLimitOrder 1 1 Sell (Coin 1) 100000 (Coin 2) (P18 * 4999 / 10000) 100000 3600)].
Lemma lowered_steps s : reach (sane any_params) (InBlock, s) -> (match deliver s (MUpdateParams coarse) with Some s' => match get_order s' 1 1 with Some o => (ko_price o =? 4999 * 10 ^ 14) && (pm_tick_prec (st_params s') =? 0) | None => false end | None => false end) = true ->
  exists c i j o, reach (sane any_params) c /\ get_order (snd c) i j = Some o /\ ~ is_tick (pm_tick_prec (st_params (snd c))) (ko_price o).
Proof.
  intros R H. destruct (deliver s (MUpdateParams coarse)) as [s'|] eqn:E; [|discriminate H]. destruct (get_order s' 1 1) as [o|] eqn:G; [|discriminate H].
  apply andb_true_iff in H. destruct H as [H1 H2]. apply Z.eqb_eq in H1, H2. exists (InBlock, s'), 1, 1, o. cbn [snd]. split; [|split; [exact G|]].
  - eapply reach_step; [exact R|]. econstructor; [exact E|]. intros p X. injection X as <-. split; [exact Logic.I|reflexivity].
  - rewrite H1, H2. intros T. destruct (price_to_down_tick_spec (4999 * 10 ^ 14) 0 ltac:(lia) ltac:(lia)) as (_ & _ & X). specialize (X _ T ltac:(lia)).
    assert (Y : price_to_down_tick (4999 * 10 ^ 14) 0 = 4 * 10 ^ 17) by (vm_compute; reflexivity). rewrite Y in X. lia.
Qed.
Theorem C65_bound_needed : exists c i j o, reach (sane any_params) c /\ get_order (snd c) i j = Some o /\ ~ is_tick (pm_tick_prec (st_params (snd c))) (ko_price o).
Proof. apply (lowered_steps (snd (after 1 fine_order))); [apply after_in_block; vm_compute; reflexivity|vm_compute; reflexivity]. Qed.
Print Assumptions C65_bound_needed.

(** A market order and a limit order on the grid of precision 4, and the last price of a batch that
    traded: 0.55 and 0.5. *)
Definition at_most_four (p : params) : Prop := pm_tick_prec p <= 4.
Example C65_example : (forall p, at_most_four p -> pm_tick_prec p <= 4) /\ reach (sane at_most_four) (after 1 trade2) /\
  (match get_order (snd (after 1 trade2)) 1 5 with Some o => ko_price o =? P18 * 55 / 100 | None => false end) = true /\
  (match get_pair (snd (after 1 trade2)) 1 with Some p => match pr_last_price p with Some l => l =? half | None => false end | None => false end) = true.
Proof.
  split; [intros p H; exact H|]. split.
  { exists (ex_start 1). split; [|apply play_runs]. destruct (ex_genesis 1 eq_refl) as (p & b & h & t & V & (_ & R) & G & Hh & E). exists p, b, h, t.
    split; [exact V|]. split; [|split; [exact G|split; [exact Hh|exact E]]]. split; [|exact R]. apply (f_equal st_params) in E. cbn [st_params init_state] in E. rewrite <- E. vm_compute. discriminate. }
  split; vm_compute; reflexivity.
Qed.
