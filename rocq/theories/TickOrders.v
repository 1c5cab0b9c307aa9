(** The price of a batch is a tick when the last price and the prices of the user orders are. *)
From Verif Require Import Base Dec DecProofs TickModel TickSpec TickProofs OrderModel MatchModel MatchSpec OrderProofs KeyedProofs MatchProofs MatchTop ViewProofs PoolModel PoolProofs PoolOrderProofs
  RangeProofs KeeperModel KeeperLib KeeperOrders.

Lemma in_rest (b : bool) x (t : tick) r : In x (map fst (if b then r else t :: r)) -> In x (map fst (t :: r)).
Proof. destruct b; intros Y; [right; exact Y|exact Y]. Qed.
Lemma match_loop_price iter fuel : forall d h bs ss mp qd m h' mp' qd' m', match_loop iter fuel d h bs ss mp qd m = Some (h', mp', qd', m') -> mp' = mp \/ In mp' (map fst bs) \/ In mp' (map fst ss).
Proof.
  induction fuel as [|fuel IH]; intros d h bs ss mp qd m h' mp' qd' m' H; cbn [match_loop] in H; [discriminate H|].
  destruct bs as [|bt br]; [injection H as <- <- <- <-; auto|]. destruct ss as [|st sr]; [injection H as <- <- <- <-; auto|].
  destruct (fst st <=? fst bt); [|injection H as <- <- <- <-; auto]. cbn zeta in H.
  destruct (_ <=? 0); [apply IH in H; cbn [map In] in *; tauto|]. destruct (_ <=? 0); [apply IH in H; cbn [map In] in *; tauto|].
  destruct (distribute_to_tick _ _ _ _ _) as [[h1 d1]|]; [|discriminate H]. destruct (distribute_to_tick _ _ _ _ _) as [[h2 d2]|]; [|discriminate H].
  apply IH in H. destruct H as [->|[X|X]]; [|right; left; exact (in_rest _ _ _ _ X)|right; right; exact (in_rest _ _ _ _ X)]. right. destruct d; cbn [map In]; auto.
Qed.
Lemma match_book_price iter h ob last h' mp qd m : match_book iter h ob last = Some (h', mp, qd, m) -> mp = last \/ In mp (map fst (buys ob)) \/ In mp (map fst (sells ob)).
Proof.
  intros H. unfold match_book in H. destruct (buys ob) as [|b bs] eqn:Eb; [injection H as <- <- <- <-; auto|]. destruct (sells ob) as [|s ss] eqn:Es; [injection H as <- <- <- <-; auto|].
  destruct (match_single iter h ob last) as [r|]; [|discriminate H]. destruct r as [[h1 q]|]; destruct (price_direction h ob last); first [apply match_loop_price in H; exact H|injection H as <- <- <- <-; auto].
Qed.
Lemma keyed_key R k ps L : keyed R k ps L -> forall x, In x (map fst L) -> exists p, In p ps /\ k p = x.
Proof.
  intros (ks & _ & H & ->) x Hx. apply H. rewrite map_map in Hx. rewrite map_ext with (g := fun y => y) in Hx by reflexivity. rewrite map_id in Hx. exact Hx.
Qed.
Lemma book_price h x : In x (map fst (buys (new_order_book h))) \/ In x (map fst (sells (new_order_book h))) -> exists o, In o h /\ o_price o = x.
Proof.
  destruct (new_order_book_ok h) as [B S]. intros [H|H]; [destruct (keyed_key _ _ _ _ B x H) as (p & Hp & E)|destruct (keyed_key _ _ _ _ S x H) as (p & Hp & E)]; exists (get h p);
    (split; [|exact E]); apply filter_In in Hp; destruct Hp as [Hp _]; apply in_seq in Hp; apply nth_In; lia.
Qed.

Lemma pool_buy_orders_tick p lo hi prec os : 0 <= prec -> is_tick prec lo -> is_tick prec hi -> 0 <= p_rx p -> 0 <= p_ry p ->
  pool_buy_orders p lo hi prec = Some os -> Forall (fun o => is_tick prec (fst o)) os.
Proof.
  intros Hp Tl Th Rx Ry H. pose proof (tick_pos _ _ Tl). pose proof (tick_pos _ _ Th).
  destruct (pool_price p) as [pp| |] eqn:Epp; [|unfold pool_buy_orders in H; rewrite Epp in H; destruct (buy_start _ _ _ _) as [[?|]| |]; injection H as <-; constructor ..].
  destruct (Z_le_gt_dec lo hi) as [L|G].
  - destruct (pool_buy_orders_spec p lo hi prec pp Hp ltac:(lia) Th Rx Ry Epp) as [S _]. destruct (S os H) as (_ & F & _).
    eapply Forall_impl; [|exact F]. intros o (To & _). exact To.
  - unfold pool_buy_orders in H. rewrite Epp in H. destruct (buy_start p lo hi prec) as [[s|]| |] eqn:ES; try (injection H as <-; constructor).
    unfold buy_start in ES. rewrite Epp in ES. cbn [rbind] in ES. destruct (Z.leb_spec pp lo); [discriminate ES|].
    apply rbind_ok in ES. destruct ES as ([p1 os1] & E1 & ES). apply rbind_ok in ES. destruct ES as (pp1 & Epp1 & ES). apply rbind_ok in ES. destruct ES as (tick & Et & ES).
    injection ES as <-.
    assert (Ht : tick < lo).
    { unfold price_to_down_tick_chk in Et. destruct (Z.eqb_spec (Z.min hi pp1) 0) as [|N]; [discriminate Et|]. injection Et as <-.
      destruct (Z_lt_le_dec 0 (Z.min hi pp1)) as [L1|L1].
      - destruct (price_to_down_tick_spec (Z.min hi pp1) prec Hp L1) as (_ & D & _). lia.
      - pose proof (neg_down_tick (Z.min hi pp1) prec ltac:(lia)). lia. }
    assert (F1 : Forall (fun o => is_tick prec (fst o)) os1).
    { destruct (Z.ltb_spec hi pp); [|injection E1 as _ <-; constructor]. apply rbind_ok in E1. destruct E1 as (amt & _ & E1).
      destruct (Z.leb_spec min_coin_amount amt); [|injection E1 as _ <-; constructor]. apply rbind_ok in E1. destruct E1 as (p' & _ & E1). injection E1 as _ <-.
      constructor; [exact Th|constructor]. }
    rewrite (iter_until_stop _ _ _ (Some os1)) in H; [injection H as <-; assumption|].
    unfold buy_step. destruct (Z.ltb_spec tick lo); [reflexivity|lia].
Qed.
Lemma pool_sell_orders_tick p lo hi prec os : 0 <= prec -> is_tick prec lo -> is_tick prec hi -> 0 <= p_rx p -> 0 <= p_ry p ->
  (forall pp, pool_price p = Ok pp -> 0 <= pp) -> pool_sell_orders p lo hi prec = Some os -> Forall (fun o => is_tick prec (fst o)) os.
Proof.
  intros Hp Tl Th Rx Ry Hpos H. pose proof (tick_pos _ _ Tl). pose proof (tick_pos _ _ Th).
  destruct (pool_price p) as [pp| |] eqn:Epp; [|unfold pool_sell_orders in H; rewrite Epp in H; destruct (sell_start _ _ _ _) as [[?|]| |]; injection H as <-; constructor ..].
  destruct (Z_le_gt_dec lo hi) as [L|G].
  - destruct (pool_sell_orders_spec p lo hi prec pp Hp ltac:(lia) Tl Rx Ry Epp (Hpos _ eq_refl)) as [S _]. destruct (S os H) as (_ & F & _).
    eapply Forall_impl; [|exact F]. intros o (To & _). exact To.
  - unfold pool_sell_orders in H. rewrite Epp in H. destruct (sell_start p lo hi prec) as [[s|]| |] eqn:ES; try (injection H as <-; constructor).
    unfold sell_start in ES. rewrite Epp in ES. cbn [rbind] in ES. destruct (Z.leb_spec hi pp); [discriminate ES|].
    apply rbind_ok in ES. destruct ES as ([p1 os1] & E1 & ES). apply rbind_ok in ES. destruct ES as (pp1 & Epp1 & ES). apply rbind_ok in ES. destruct ES as (tick & Et & ES).
    injection ES as <-.
    assert (Ht : hi < tick).
    { unfold price_to_up_tick_chk in Et. destruct (Z.eqb_spec (Z.max lo pp1) 0) as [|N]; [discriminate Et|]. injection Et as <-.
      destruct (price_to_up_tick_spec (Z.max lo pp1) prec Hp ltac:(lia)) as (_ & D & _). lia. }
    assert (F1 : Forall (fun o => is_tick prec (fst o)) os1).
    { destruct (Z.ltb_spec pp lo); [|injection E1 as _ <-; constructor]. apply rbind_ok in E1. destruct E1 as (amt & _ & E1).
      destruct (Z.leb_spec min_coin_amount amt); [|injection E1 as _ <-; constructor]. apply rbind_ok in E1. destruct E1 as (m & _ & E1).
      apply rbind_ok in E1. destruct E1 as (v & _ & E1). destruct (0 <? v); [|injection E1 as _ <-; constructor].
      apply rbind_ok in E1. destruct E1 as (p' & _ & E1). injection E1 as _ <-.
      constructor; [exact Tl|constructor]. }
    rewrite (iter_until_stop _ _ _ (Some os1)) in H; [injection H as <-; assumption|].
    unfold sell_step. destruct (Z.ltb_spec hi tick); [reflexivity|lia].
Qed.
Lemma orders_around_tick lo hi prec ps : 0 <= prec -> is_tick prec lo -> is_tick prec hi -> Forall sound_pool ps ->
  forall os, orders_around lo hi prec ps = Some os -> Forall (fun o => is_tick prec (o_price o)) os.
Proof.
  intros Hp Tl Th HF. induction HF as [|[i p] ps [S1 [S2 S3]] HF IH]; intros os H; cbn [orders_around] in H; [injection H as <-; constructor|]. cbn [snd] in *.
  destruct (pool_buy_orders p lo hi prec) as [bs|] eqn:Eb; [|discriminate H]. destruct (pool_sell_orders p lo hi prec) as [ss|] eqn:Es; [|discriminate H].
  destruct (orders_around lo hi prec ps) as [r|] eqn:Er; [|discriminate H]. injection H as <-. specialize (IH r eq_refl).
  rewrite !Forall_app. split; [|split; [|exact IH]]; apply Forall_map.
  - exact (pool_buy_orders_tick _ _ _ _ _ Hp Tl Th S1 S2 Eb).
  - exact (pool_sell_orders_tick _ _ _ _ _ Hp Tl Th S1 S2 S3 Es).
Qed.

(** A tick of a precision is a tick of every finer one. *)
Lemma tick_finer p n v : 0 <= p <= n -> is_tick p v -> is_tick n v.
Proof.
  intros H (m & e & M & E & V). exists m, e. split; [|split; assumption]. assert (10 ^ (p + 1) <= 10 ^ (n + 1)) by (apply Z.pow_le_mono_r; lia). lia.
Qed.
Lemma kmatch_tick n iter prm h ps last h1 h2 mp qd : 0 <= pm_tick_prec prm <= n -> 0 <= pm_price_ratio prm < P18 -> Forall sound_pool ps ->
  Forall (fun o => is_tick n (o_price o)) h -> (forall l, last = Some l -> is_tick n l) ->
  kmatch iter prm h ps last = Some (h1, Some (h2, mp, qd)) -> is_tick n mp.
Proof.
  intros Hn Hr Sp Fh Hl H. assert (Hp : 0 <= pm_tick_prec prm) by lia. unfold kmatch in H. cbn zeta in H. destruct last as [last|].
  - specialize (Hl last eq_refl). pose proof (tick_pos _ _ Hl) as Lp. destruct (price_limits last (pm_price_ratio prm) (pm_tick_prec prm)) as [[lo hi]| |] eqn:El; [|discriminate H|discriminate H].
    cbn [of_res fst snd] in H. destruct (price_limits_spec _ _ _ _ _ Hp Lp Hr El) as (Tl & Th & _).
    destruct (orders_around lo hi (pm_tick_prec prm) ps) as [po|] eqn:Ep; [|discriminate H].
    destruct (match_book iter (h ++ po) (new_order_book (h ++ po)) last) as [[[[g2 mp2] qd2] m]|] eqn:Em; [|discriminate H].
    destruct m; [|discriminate H]. injection H as <- <- <- <-. apply match_book_price in Em. destruct Em as [->|Em]; [exact Hl|].
    apply book_price in Em. destruct Em as (o & Ho & <-). apply in_app_iff in Ho. destruct Ho as [Ho|Ho]; [rewrite Forall_forall in Fh; exact (Fh o Ho)|].
    pose proof (orders_around_tick _ _ _ _ Hp Tl Th Sp _ Ep) as X. rewrite Forall_forall in X. exact (tick_finer _ _ _ Hn (X o Ho)).
  - match type of H with (if ?e then None else _) = _ => destruct e eqn:Ec; [discriminate H|] end.
    destruct (find_match_price _ _) as [mp1|] eqn:Ef; [|discriminate H].
    destruct (match_single _ _ _ _) as [r0|] eqn:Em; [|discriminate H]. destruct r0 as [[g2 qd2]|]; [|discriminate H]. injection H as <- <- <- <-.
    apply (tick_finer _ _ _ Hn). eapply find_match_price_pos; [|exact Ef]. apply andb_false_iff in Ec. destruct Ec as [Ec|Ec]; [exfalso|lia].
    unfold find_match_price in Ef. destruct (ov_highest_buy _) as [hb|]; [|discriminate Ef]. destruct (ov_lowest_sell _) as [ls|]; [|discriminate Ef].
    destruct (Z.ltb_spec hb ls); [discriminate Ef|]. lia.
Qed.
