(** The orders that enter matching in the keeper are well formed. *)
From Verif Require Import Base Dec DecProofs TickModel TickSpec TickProofs OrderModel MatchModel MatchSpec KeyedProofs OrderProofs MatchProofs MatchLoopProofs MatchBookProofs MatchTop ViewProofs
  PoolModel PoolProofs PoolOrderProofs RangeProofs RangeCreate KeeperModel KeeperLib KeeperSpec KeeperMicro.
From Coq Require Import Permutation.

(** ** The match price *)
Lemma search_loop_ge fuel f : forall i j, i <= j -> i <= search_loop fuel f i j.
Proof.
  induction fuel as [|fuel IH]; intros i j H; cbn [search_loop]; [lia|]. destruct (Z.ltb_spec i j); [|lia].
  assert (i <= (i + j) / 2 < j) by (split; [apply Z.div_le_lower_bound|apply Z.div_lt_upper_bound]; lia).
  destruct (f _); [apply IH; lia|]. etransitivity; [|apply IH; lia]. lia.
Qed.
Lemma find_first_true_range a b f i : find_first_true a b f = Some i -> Z.min a b <= i <= Z.max a b.
Proof.
  unfold find_first_true, go_search. destruct (Z.ltb_spec a b).
  - match goal with |- context [search_loop ?fu ?g ?x ?y] => pose proof (search_loop_ge fu g x y ltac:(lia)); set (z := search_loop fu g x y) in * end.
    destruct (Z.ltb_spec b (a + z)); [discriminate|]. intros E. injection E as <-. lia.
  - match goal with |- context [search_loop ?fu ?g ?x ?y] => pose proof (search_loop_ge fu g x y ltac:(lia)); set (z := search_loop fu g x y) in * end.
    destruct (Z.ltb_spec (a - z) b); [discriminate|]. intros E. injection E as <-. lia.
Qed.
Lemma find_match_price_pos ov prec p : 0 <= prec <= 18 -> find_match_price ov prec = Some p -> 0 < p /\ is_tick prec p.
Proof.
  intros Hp H. unfold find_match_price in H. destruct (ov_highest_buy ov) as [hb|]; [|discriminate H]. destruct (ov_lowest_sell ov) as [ls|]; [|discriminate H].
  destruct (hb <? ls); [discriminate H|]. cbn zeta in H.
  destruct (find_first_true _ _ _) as [i|] eqn:Ei; [|discriminate H]. destruct (find_first_true _ _ _) as [j|] eqn:Ej in H; [|discriminate H].
  apply find_first_true_range in Ei. apply find_first_true_range in Ej. rewrite (tick_to_index_lowest prec ltac:(lia)) in *.
  pose proof (lowest_lt_highest prec ltac:(lia)) as LH.
  destruct (tick_from_index_of_index prec (highest_tick prec) ltac:(lia) (highest_is_tick prec ltac:(lia)) ltac:(lia)) as [Nh Eh].
  set (hi := tick_to_index (highest_tick prec) prec) in *.
  assert (B : forall k, Z.min 0 hi <= k <= Z.max 0 hi -> lowest_tick prec <= tick_from_index k prec <= highest_tick prec).
  { intros k Hk. destruct (tick_from_index_tick prec k ltac:(lia) ltac:(lia)) as [_ X]. split; [assumption|]. rewrite <- Eh. apply tick_from_index_mono_le; lia. }
  pose proof (B i Ei) as Bi. pose proof (B j ltac:(lia)) as Bj. pose proof (tick_pos _ _ (lowest_is_tick prec ltac:(lia))) as Lp.
  assert (R : is_tick prec p /\ lowest_tick prec <= p <= highest_tick prec).
  { assert (Ep : p = round_price (dquo_int (tick_from_index i prec + tick_from_index j prec) 2) prec) by congruence. rewrite Ep. apply round_between.
    - lia. - apply lowest_is_tick; lia. - apply highest_is_tick; lia. - lia.
    - unfold dquo_int. rewrite Z.quot_div_nonneg by lia. split; [apply Z.div_le_lower_bound|apply Z.div_le_upper_bound]; lia. }
  destruct R as [R1 R2]. split; [lia|assumption].
Qed.

(** ** Pool orders *)
Definition pos_order (o : dec * Z) : Prop := 0 < fst o /\ 0 < snd o.

Lemma iter_until_stop {S R} (f : S -> S + R) n s r : f s = inr r -> iter_until n f s = inr r.
Proof. intros H. induction n as [|n IH]; cbn; [assumption|]. rewrite IH. reflexivity. Qed.

Lemma pool_buy_orders_pos p lo hi prec os : 0 <= prec -> is_tick prec lo -> is_tick prec hi -> 0 <= p_rx p -> 0 <= p_ry p ->
  pool_buy_orders p lo hi prec = Some os -> Forall pos_order os.
Proof.
  intros Hp Tl Th Rx Ry H. pose proof (tick_pos _ _ Tl). pose proof (tick_pos _ _ Th).
  destruct (pool_price p) as [pp| |] eqn:Epp; [|unfold pool_buy_orders in H; rewrite Epp in H; destruct (buy_start _ _ _ _) as [[?|]| |]; injection H as <-; constructor ..].
  destruct (Z_le_gt_dec lo hi) as [L|G].
  - destruct (pool_buy_orders_spec p lo hi prec pp Hp ltac:(lia) Th Rx Ry Epp) as [S _]. destruct (S os H) as (_ & F & _).
    eapply Forall_impl; [|exact F]. intros o (To & _ & _ & A). split; [exact (tick_pos _ _ To)|unfold min_coin_amount in *; lia].
  - unfold pool_buy_orders in H. rewrite Epp in H. destruct (buy_start p lo hi prec) as [[s|]| |] eqn:ES; try (injection H as <-; constructor).
    unfold buy_start in ES. rewrite Epp in ES. cbn [rbind] in ES. destruct (Z.leb_spec pp lo); [discriminate ES|].
    apply rbind_ok in ES. destruct ES as ([p1 os1] & E1 & ES). apply rbind_ok in ES. destruct ES as (pp1 & Epp1 & ES). apply rbind_ok in ES. destruct ES as (tick & Et & ES).
    injection ES as <-.
    assert (Ht : tick < lo).
    { unfold price_to_down_tick_chk in Et. destruct (Z.eqb_spec (Z.min hi pp1) 0) as [|N]; [discriminate Et|]. injection Et as <-.
      destruct (Z_lt_le_dec 0 (Z.min hi pp1)) as [L1|L1].
      - destruct (price_to_down_tick_spec (Z.min hi pp1) prec Hp L1) as (_ & D & _). lia.
      - pose proof (neg_down_tick (Z.min hi pp1) prec ltac:(lia)). lia. }
    assert (F1 : Forall pos_order os1).
    { destruct (Z.ltb_spec hi pp); [|injection E1 as _ <-; constructor]. apply rbind_ok in E1. destruct E1 as (amt & _ & E1).
      destruct (Z.leb_spec min_coin_amount amt); [|injection E1 as _ <-; constructor]. apply rbind_ok in E1. destruct E1 as (p' & _ & E1). injection E1 as _ <-.
      constructor; [|constructor]. unfold pos_order, min_coin_amount in *. cbn [fst snd]. lia. }
    rewrite (iter_until_stop _ _ _ (Some os1)) in H; [injection H as <-; assumption|].
    unfold buy_step. destruct (Z.ltb_spec tick lo); [reflexivity|lia].
Qed.

Lemma pool_sell_orders_pos p lo hi prec os : 0 <= prec -> is_tick prec lo -> is_tick prec hi -> 0 <= p_rx p -> 0 <= p_ry p ->
  (forall pp, pool_price p = Ok pp -> 0 <= pp) -> pool_sell_orders p lo hi prec = Some os -> Forall pos_order os.
Proof.
  intros Hp Tl Th Rx Ry Hpos H. pose proof (tick_pos _ _ Tl). pose proof (tick_pos _ _ Th).
  destruct (pool_price p) as [pp| |] eqn:Epp; [|unfold pool_sell_orders in H; rewrite Epp in H; destruct (sell_start _ _ _ _) as [[?|]| |]; injection H as <-; constructor ..].
  destruct (Z_le_gt_dec lo hi) as [L|G].
  - destruct (pool_sell_orders_spec p lo hi prec pp Hp ltac:(lia) Tl Rx Ry Epp (Hpos _ eq_refl)) as [S _]. destruct (S os H) as (_ & F & _).
    eapply Forall_impl; [|exact F]. intros o (To & _ & _ & A & _). split; [exact (tick_pos _ _ To)|unfold min_coin_amount in *; lia].
  - unfold pool_sell_orders in H. rewrite Epp in H. destruct (sell_start p lo hi prec) as [[s|]| |] eqn:ES; try (injection H as <-; constructor).
    unfold sell_start in ES. rewrite Epp in ES. cbn [rbind] in ES. destruct (Z.leb_spec hi pp); [discriminate ES|].
    apply rbind_ok in ES. destruct ES as ([p1 os1] & E1 & ES). apply rbind_ok in ES. destruct ES as (pp1 & Epp1 & ES). apply rbind_ok in ES. destruct ES as (tick & Et & ES).
    injection ES as <-.
    assert (Ht : hi < tick).
    { unfold price_to_up_tick_chk in Et. destruct (Z.eqb_spec (Z.max lo pp1) 0) as [|N]; [discriminate Et|]. injection Et as <-.
      destruct (price_to_up_tick_spec (Z.max lo pp1) prec Hp ltac:(lia)) as (_ & D & _). lia. }
    assert (F1 : Forall pos_order os1).
    { destruct (Z.ltb_spec pp lo); [|injection E1 as _ <-; constructor]. apply rbind_ok in E1. destruct E1 as (amt & _ & E1).
      destruct (Z.leb_spec min_coin_amount amt); [|injection E1 as _ <-; constructor]. apply rbind_ok in E1. destruct E1 as (m & _ & E1).
      apply rbind_ok in E1. destruct E1 as (v & _ & E1). destruct (0 <? v); [|injection E1 as _ <-; constructor].
      apply rbind_ok in E1. destruct E1 as (p' & _ & E1). injection E1 as _ <-.
      constructor; [|constructor]. unfold pos_order, min_coin_amount in *. cbn [fst snd]. lia. }
    rewrite (iter_until_stop _ _ _ (Some os1)) in H; [injection H as <-; assumption|].
    unfold sell_step. destruct (Z.ltb_spec hi tick); [reflexivity|lia].
Qed.

(** A pool as the keeper builds it from the reserve account. *)
Lemma amm_pool_facts p rx ry ps ap : good_kind (pl_kind p) -> 0 <= rx -> 0 <= ry -> amm_pool p rx ry ps = Ok ap ->
  p_rx ap = rx /\ p_ry ap = ry /\ p_ps ap = ps /\ forall pp, pool_price ap = Ok pp -> 0 <= pp.
Proof.
  intros G Hx Hy H. unfold amm_pool in H. destruct (pl_kind p) as [|a b].
  - injection H as <-. cbn [p_rx p_ry p_ps]. split; [reflexivity|]. split; [reflexivity|]. split; [reflexivity|]. intros pp. apply pool_price_nonneg; auto.
  - cbn in G. unfold new_ranged_pool in H. destruct (set_balances_res _ _ _ _ _ H) as (A & B & C). split; [exact A|]. split; [exact B|]. split; [exact C|].
    intros pp Hpp. exact (ranged_price_nonneg rx ry rx ry ps a b 0 0 ap pp G Hx Hy H Hpp).
Qed.

Definition sound_pool (ip : Z * pool) : Prop := 0 <= p_rx (snd ip) /\ 0 <= p_ry (snd ip) /\ forall pp, pool_price (snd ip) = Ok pp -> 0 <= pp.
(** Orders of pools: fresh and marked with a pool id of the list. *)
Definition pool_made (ps : list (Z * pool)) (o : order) : Prop := fresh_order o /\ exists i, o_kind o = KPool i /\ In i (map fst ps).

Lemma pool_order_fresh i d po : pos_order po -> fresh_order (pool_order i d po).
Proof.
  intros [A B]. unfold fresh_order, pool_order, new_order. cbn. pose proof (offer_coin_amount_pos d (fst po) (snd po) A B). destruct d; cbn in *; lia.
Qed.

Lemma orders_around_made lo hi prec ps : 0 <= prec -> is_tick prec lo -> is_tick prec hi -> Forall sound_pool ps ->
  forall os, orders_around lo hi prec ps = Some os -> Forall (pool_made ps) os.
Proof.
  intros Hp Tl Th HF. induction HF as [|[i p] ps [S1 [S2 S3]] HF IH]; intros os H; cbn [orders_around] in H; [injection H as <-; constructor|]. cbn [snd] in *.
  destruct (pool_buy_orders p lo hi prec) as [bs|] eqn:Eb; [|discriminate H]. destruct (pool_sell_orders p lo hi prec) as [ss|] eqn:Es; [|discriminate H].
  destruct (orders_around lo hi prec ps) as [r|] eqn:Er; [|discriminate H]. injection H as <-. specialize (IH r eq_refl).
  pose proof (pool_buy_orders_pos _ _ _ _ _ Hp Tl Th S1 S2 Eb) as FB. pose proof (pool_sell_orders_pos _ _ _ _ _ Hp Tl Th S1 S2 S3 Es) as FS.
  rewrite !Forall_app. split; [|split].
  - apply Forall_map. eapply Forall_impl; [|exact FB]. intros o Ho. split; [apply pool_order_fresh; assumption|]. exists i. cbn. auto.
  - apply Forall_map. eapply Forall_impl; [|exact FS]. intros o Ho. split; [apply pool_order_fresh; assumption|]. exists i. cbn. auto.
  - eapply Forall_impl; [|exact IH]. intros o (F & j & K & I). split; [assumption|]. exists j. cbn. auto.
Qed.

Lemma pool_sell_orders_from p lo hi prec os : 0 <= prec -> is_tick prec lo -> is_tick prec hi -> 0 <= p_rx p -> 0 <= p_ry p ->
  (forall pp, pool_price p = Ok pp -> 0 <= pp) -> pool_sell_orders p lo hi prec = Some os -> Forall (fun o => lo <= fst o) os.
Proof.
  intros Hp Tl Th Rx Ry Hpos H. pose proof (tick_pos _ _ Tl). pose proof (tick_pos _ _ Th).
  destruct (pool_price p) as [pp| |] eqn:Epp; [|unfold pool_sell_orders in H; rewrite Epp in H; destruct (sell_start _ _ _ _) as [[?|]| |]; injection H as <-; constructor ..].
  destruct (Z_le_gt_dec lo hi) as [L|G].
  - destruct (pool_sell_orders_spec p lo hi prec pp Hp ltac:(lia) Tl Rx Ry Epp (Hpos _ eq_refl)) as [S _]. destruct (S os H) as (_ & _ & F).
    apply Forall_forall. exact (asc_from_all _ _ F).
  - unfold pool_sell_orders in H. rewrite Epp in H. destruct (sell_start p lo hi prec) as [[s|]| |] eqn:ES; try (injection H as <-; constructor).
    unfold sell_start in ES. rewrite Epp in ES. cbn [rbind] in ES. destruct (Z.leb_spec hi pp); [discriminate ES|].
    apply rbind_ok in ES. destruct ES as ([p1 os1] & E1 & ES). apply rbind_ok in ES. destruct ES as (pp1 & Epp1 & ES). apply rbind_ok in ES. destruct ES as (tick & Et & ES).
    injection ES as <-.
    assert (Ht : hi < tick).
    { unfold price_to_up_tick_chk in Et. destruct (Z.eqb_spec (Z.max lo pp1) 0) as [|N]; [discriminate Et|]. injection Et as <-.
      destruct (price_to_up_tick_spec (Z.max lo pp1) prec Hp ltac:(lia)) as (_ & D & _). lia. }
    assert (F1 : Forall (fun o => lo <= fst o) os1).
    { destruct (Z.ltb_spec pp lo); [|injection E1 as _ <-; constructor]. apply rbind_ok in E1. destruct E1 as (amt & _ & E1).
      destruct (Z.leb_spec min_coin_amount amt); [|injection E1 as _ <-; constructor]. apply rbind_ok in E1. destruct E1 as (m & _ & E1).
      apply rbind_ok in E1. destruct E1 as (v & _ & E1). destruct (0 <? v); [|injection E1 as _ <-; constructor].
      apply rbind_ok in E1. destruct E1 as (p' & _ & E1). injection E1 as _ <-.
      constructor; [|constructor]. cbn [fst snd]. lia. }
    rewrite (iter_until_stop _ _ _ (Some os1)) in H; [injection H as <-; assumption|].
    unfold sell_step. destruct (Z.ltb_spec hi tick); [reflexivity|lia].
Qed.
(** Sell orders of pools are not below the lowest price allowed. *)
Lemma orders_around_from lo hi prec ps : 0 <= prec -> is_tick prec lo -> is_tick prec hi -> Forall sound_pool ps ->
  forall os, orders_around lo hi prec ps = Some os -> Forall (fun o => o_dir o = Sell -> lo <= o_price o) os.
Proof.
  intros Hp Tl Th HF. induction HF as [|[i p] ps [S1 [S2 S3]] HF IH]; intros os H; cbn [orders_around] in H; [injection H as <-; constructor|]. cbn [snd] in *.
  destruct (pool_buy_orders p lo hi prec) as [bs|] eqn:Eb; [|discriminate H]. destruct (pool_sell_orders p lo hi prec) as [ss|] eqn:Es; [|discriminate H].
  destruct (orders_around lo hi prec ps) as [r|] eqn:Er; [|discriminate H]. injection H as <-. specialize (IH r eq_refl).
  pose proof (pool_sell_orders_from _ _ _ _ _ Hp Tl Th S1 S2 S3 Es) as FS.
  rewrite !Forall_app. split; [|split; [|exact IH]].
  - apply Forall_map. apply Forall_forall. intros o _ X. discriminate X.
  - apply Forall_map. eapply Forall_impl; [|exact FS]. intros o Ho _. exact Ho.
Qed.

Lemma orders_at_made mp ps : 0 < mp -> Forall (pool_made ps) (flat_map (orders_at mp) ps).
Proof.
  intros Hm. apply Forall_forall. intros o Ho. apply in_flat_map in Ho. destruct Ho as ([i p] & Hin & Ho). unfold orders_at in Ho. cbn [fst snd] in Ho.
  assert (I : In i (map fst ps)) by (change i with (fst (i, p)); apply in_map; assumption).
  apply in_app_iff in Ho. destruct Ho as [Ho|Ho]; [destruct (Z.ltb_spec 0 (ok_or0 (buy_amount_over p mp)))|destruct (Z.ltb_spec 0 (ok_or0 (sell_amount_under p mp)))];
    try (destruct Ho; fail); destruct Ho as [<-|[]]; (split; [apply pool_order_fresh; split; assumption|exists i; cbn; auto]).
Qed.

(** ** User orders *)
Lemma user_order_fresh pr o uo : order_ok pr o -> user_order o = Ok uo ->
  fresh_order uo /\ o_kind uo = KUser (ko_id o) /\ o_dir uo = ko_dir o /\ o_offer uo = ko_remaining o /\ o_amt uo <= ko_open o /\ o_price uo = ko_price o /\ o_batch uo = ko_batch o.
Proof.
  intros (_ & _ & _ & _ & _ & _ & P & O & R & _ & _ & _ & Sl) H. unfold user_order in H. apply rbind_ok in H. destruct H as (amt & Ea & H). injection H as <-.
  unfold fresh_order, new_order. cbn.
  assert (A : 0 <= amt <= ko_open o /\ (ko_dir o = Sell -> amt = ko_open o)).
  { destruct (ko_dir o) eqn:D.
    - split; [|discriminate]. unfold safe_math in Ea.
      match type of Ea with (match ?e with _ => _ end) = _ => destruct e as [x| |] eqn:E end; [|injection Ea as <-; lia|discriminate Ea].
      injection Ea as <-. apply rbind_ok in E. destruct E as (q & Eq & E). apply rbind_ok in E. destruct E as (a & Et & E). injection E as <-.
      apply c_quo_trunc_ok in Eq. destruct Eq as [_ ->]. apply c_trunc_ok in Et. destruct Et as [-> _].
      assert (0 <= dtrunc (dquo_trunc (of_int (ko_remaining o)) (ko_price o))); [|lia].
      rewrite quo_trunc_int by lia. apply Z.div_pos; [|assumption]. pose proof P18_pos. nia.
    - injection Ea as <-. split; [lia|auto]. }
  destruct A as [A1 A2]. destruct (ko_dir o); [|specialize (Sl eq_refl); specialize (A2 eq_refl)]; repeat split; auto; lia.
Qed.

(** ** Match *)
Lemma kmatch_facts iter prm h ps last h1 r : 0 <= pm_tick_prec prm -> 0 <= pm_price_ratio prm < P18 -> Forall fresh_order h -> Forall sound_pool ps ->
  (forall p, last = Some p -> 0 < p) -> kmatch iter prm h ps last = Some (h1, r) ->
  exists po, h1 = h ++ po /\ Forall (pool_made ps) po /\
    (forall h2 mp qd, r = Some (h2, mp, qd) -> match_outcome iter h1 h2 mp qd) /\
    forall l lo hi, last = Some l -> price_limits l (pm_price_ratio prm) (pm_tick_prec prm) = Ok (lo, hi) -> Forall (fun o => o_dir o = Sell -> lo <= o_price o) po.
Proof.
  intros Hp Hr Fh Fp Hl H. unfold kmatch in H. cbn zeta in H. destruct last as [last|].
  - specialize (Hl last eq_refl). destruct (price_limits last (pm_price_ratio prm) (pm_tick_prec prm)) as [[lo hi]| |] eqn:El; [|discriminate H|discriminate H].
    cbn [of_res fst snd] in H. destruct (price_limits_spec _ _ _ _ _ Hp Hl Hr El) as (Tl & Th & _).
    destruct (orders_around lo hi (pm_tick_prec prm) ps) as [po|] eqn:Ep; [|discriminate H]. exists po.
    destruct (match_book iter (h ++ po) (new_order_book (h ++ po)) last) as [[[[h2 mp] qd] m]|] eqn:Em; [|discriminate H].
    injection H as <- <-. split; [reflexivity|]. split; [exact (orders_around_made _ _ _ _ Hp Tl Th Fp _ Ep)|]. split.
    + intros h2' mp' qd' E. destruct m; [|discriminate E]. injection E as <- <- <-. apply (MO_last iter _ _ _ _ last Hl Em).
    + intros l lo' hi' E1 E2. injection E1 as <-. rewrite El in E2. injection E2 as <- <-. exact (orders_around_from _ _ _ _ Hp Tl Th Fp _ Ep).
  - match type of H with (if ?e then None else _) = _ => destruct e eqn:Ec; [discriminate H|] end.
    destruct (find_match_price _ _) as [mp|] eqn:Ef.
    + assert (0 < mp).
      { eapply find_match_price_pos; [|exact Ef]. apply andb_false_iff in Ec. destruct Ec as [Ec|Ec]; [exfalso|lia].
        unfold find_match_price in Ef. destruct (ov_highest_buy _) as [hb|]; [|discriminate Ef]. destruct (ov_lowest_sell _) as [ls|]; [|discriminate Ef].
        destruct (Z.ltb_spec hb ls); [discriminate Ef|]. lia. }
      destruct (match_single _ _ _ _) as [r0|] eqn:Em; [|discriminate H]. injection H as <- <-. eexists. split; [reflexivity|].
      split; [apply orders_at_made; assumption|]. split; [|intros ? ? ? X; discriminate X]. intros h2' mp' qd' E. destruct r0 as [[h2 qd]|]; [|discriminate E]. injection E as <- <- <-. apply MO_single; assumption.
    + injection H as <- <-. exists []. split; [rewrite app_nil_r; reflexivity|]. split; [constructor|]. split; [intros ? ? ? E; discriminate E|]. intros ? ? ? E. discriminate E.
Qed.

Lemma match_outcome_price iter h h' mp qd : is_perm_iter iter -> Forall wf_order h -> match_outcome iter h h' mp qd -> 0 < mp.
Proof.
  intros Hi Hw H. destruct (match_outcome_ok _ _ _ _ _ Hi Hw H) as (tr & M & _ & f & Hf & <-).
  destruct M as [T _ _ _ _ _ _ _]. clear -T Hf. induction T as [|h i a p rest h' Hi Hp Ha Hacc T IH]; [destruct Hf|]. destruct Hf as [<-|Hf]; [exact Hp|auto].
Qed.

(** ** The orders applied: those of the book *)
Lemma NoDup_app_intro {A} (l1 l2 : list A) : NoDup l1 -> NoDup l2 -> (forall x, In x l1 -> ~ In x l2) -> NoDup (l1 ++ l2).
Proof.
  induction l1 as [|x l1 IH]; intros N1 N2 D; [assumption|]. inversion N1 as [|? ? A1 B1]; subst. cbn. constructor.
  - rewrite in_app_iff. intros [H|H]; [contradiction|]. exact (D x (or_introl eq_refl) H).
  - apply IH; auto. intros y Hy. apply D. right. assumption.
Qed.
Lemma book_ptrs h : NoDup (book_orders (new_order_book h)) /\ forall p, In p (book_orders (new_order_book h)) -> (p < length h)%nat.
Proof.
  unfold book_orders. rewrite flat_map_app. destruct (new_book_contents h) as [(_ & N1 & B1 & _) (_ & N2 & B2 & _)]. split.
  - apply NoDup_app_intro; [assumption|assumption|]. intros p P1 P2. apply B1 in P1. apply B2 in P2. destruct P1 as (_ & X & _), P2 as (_ & Y & _). congruence.
  - intros p Hp. apply in_app_iff in Hp. destruct Hp as [Hp|Hp]; [apply B1 in Hp|apply B2 in Hp]; destruct Hp; assumption.
Qed.

Lemma book_ptrs_changed iter h h' mp qd : is_perm_iter iter -> Forall wf_order h -> match_outcome iter h h' mp qd ->
  forall p, ~ In p (book_orders (new_order_book h)) -> get h' p = get h p.
Proof.
  intros Hi Hw H p Np. destruct (match_outcome_ok _ _ _ _ _ Hi Hw H) as (tr & M & _). destruct M as [T _ I _ _ _ _ _].
  pose proof (trace_filled_by h tr h' p T) as F.
  assert (E : fills_of p tr = []).
  { unfold fills_of. destruct (filter _ tr) as [|f l] eqn:E; [reflexivity|exfalso]. assert (X : In f (f :: l)) by (left; reflexivity). rewrite <- E in X.
    apply filter_In in X. destruct X as [X1 X2]. apply Nat.eqb_eq in X2. specialize (I f X1). apply Np. unfold book_orders. rewrite flat_map_app, <- X2. assumption. }
  rewrite E in F. destruct F as (_ & A1 & A2 & A3 & A4 & A5 & A6 & A7 & A8 & A9). cbn in A7, A8, A9.
  destruct (get h p), (get h' p). cbn in *. subst. f_equal; lia.
Qed.
