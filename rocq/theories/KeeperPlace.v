(** Placing orders: exactly when, and exactly what. *)
From Verif Require Import Base Dec DecProofs TickModel TickSpec TickProofs OrderModel OrderProofs MatchModel MatchProofs MatchTop PoolModel PoolProofs PoolOrderProofs KeeperModel KeeperLib KeeperSpec KeeperSpec2 KeeperMicro KeeperBank KeeperSteps KeeperTrade KeeperHist KeeperBlock KeeperCancel.

Definition new_korder (s : state) (typ : otype) (u : Z) (pr : pair) (d : dir) (rp amt l : Z) : korder :=
  mkKOrder typ (pr_last_order pr + 1) (pr_id pr) (st_height s) (User u) d (offer_denom_of pr d) (offer_coin_amount d rp amt) (offer_coin_amount d rp amt) (demand_denom_of pr d) 0
    rp amt amt (pr_batch pr) (st_time s + l) ONotExecuted.

Lemma too_small_iff amt price : 0 < price -> (is_too_small amt price = Ok false <-> big_enough price amt).
Proof.
  intros P. split; [intros H; destruct (too_small_ok _ _ H) as (A & B & _); split; assumption|]. intros [A B]. unfold is_too_small.
  destruct (Z.ltb_spec amt min_coin_amount); [lia|]. unfold c_mul_int. change (dmul_int price amt) with (price * amt). rewrite chk_dec_fits by (assert (0 < of_int min_coin_amount) by reflexivity; lia). cbn [rbind].
  replace (price * amt <? of_int min_coin_amount) with false; [reflexivity|]. symmetry. apply Z.ltb_ge. lia.
Qed.

Definition target_of (s : state) (typ : otype) (d : dir) (pr : pair) (price : option dec) (target : dec) : Prop :=
  match typ with
  | TMarket => exists last, pr_last_price pr = Some last /\ c_mul last (match d with Buy => one_dec + pm_price_ratio (st_params s) | Sell => one_dec - pm_price_ratio (st_params s) end) = Ok target
  | _ => price = Some target /\ price_allowed s pr target
  end.
Definition rounded (d : dir) (prec target rp : Z) : Prop :=
  (match d with Buy => price_to_down_tick_chk target prec | Sell => price_to_up_tick_chk target prec end) = Ok rp.

Definition final_state (s1 : state) (s : state) (typ : otype) (u : Z) (pr : pair) (d : dir) (rp amt l : Z) : state :=
  let s2 := put_pair s1 (mkPair (pr_id pr) (pr_base pr) (pr_quote pr) (pr_last_order pr + 1) (pr_last_price pr) (pr_batch pr)) in
  oidx_add (put_order s2 (new_korder s typ u pr d rp amt l)) (new_korder s typ u pr d rp amt l).

Lemma place_order_iff s typ u i d od offer dd price amt l s' : str s ->
  (place_order s typ u i d od offer dd price amt l = Some s' <->
   exists pr target rp s1, get_pair s i = Some pr /\ offer <= bal (st_bank s) (User u) od /\ l <= pm_max_lifespan (st_params s) /\
     target_of s typ d pr price target /\ rounded d (pm_tick_prec (st_params s)) target rp /\ od = offer_denom_of pr d /\ dd = demand_denom_of pr d /\
     offer_coin_amount d rp amt <= offer /\ 0 < rp /\ big_enough rp amt /\
     st_send s (User u) (PairEscrow (pr_id pr)) [(od, offer_coin_amount d rp amt)] = Some s1 /\ s' = final_state s1 s typ u pr d rp amt l).
Proof.
  intros S. split.
  - intros H. destruct (place_order_spec _ _ _ _ _ _ _ _ _ _ _ _ S H) as (pr0 & rp0 & s10 & G0 & I0 & P0 & B1 & B2 & Sd & Le & Es).
    unfold place_order in H. cbn zeta in H.
    destruct (Z.ltb_spec (bal (st_bank s) (User u) od) offer) as [|Eb]; [discriminate H|]. destruct (Z.ltb_spec (pm_max_lifespan (st_params s)) l) as [|El]; [discriminate H|].
    destruct (get_pair s i) as [pr|] eqn:Ep; [|discriminate H].
    match type of H with (match ?e with Some _ => _ | None => None end) = _ => destruct e eqn:Elim; [|discriminate H] end.
    match type of H with (match ?e with Some _ => _ | None => None end) = _ => destruct e as [target|] eqn:Et; [|discriminate H] end.
    match type of H with (match of_res ?e with Some _ => _ | None => None end) = _ => destruct e as [rp| |] eqn:Er; [|discriminate H|discriminate H] end. cbn [of_res] in H.
    match type of H with (if ?e then None else _) = _ => destruct e eqn:Ed; [discriminate H|] end.
    destruct (offer_coin_amount d rp amt <? 0); [discriminate H|]. destruct (Z.ltb_spec offer (offer_coin_amount d rp amt)) as [|Eo]; [discriminate H|].
    destruct (is_too_small amt rp) as [sm| |] eqn:Esm; [|discriminate H|discriminate H]. cbn [of_res] in H. destruct sm; [discriminate H|].
    destruct (too_small_ok _ _ Esm) as (T1 & T2 & T3).
    assert (ED : od = offer_denom_of pr d /\ dd = demand_denom_of pr d).
    { apply negb_false_iff in Ed. destruct d; apply andb_true_iff in Ed; destruct Ed as [D1 D2]; cbn;
        destruct (denom_eqb_spec od (pr_base pr)), (denom_eqb_spec od (pr_quote pr)), (denom_eqb_spec dd (pr_base pr)), (denom_eqb_spec dd (pr_quote pr)); try discriminate; auto. }
    destruct ED as [E1 E2].
    destruct (new_coins _) as [oc|] eqn:En; [|discriminate H].
    destruct (st_send _ _ _ _) as [s1|] eqn:Esd; [|discriminate H].
    pose proof (offer_coin_amount_pos d rp amt T3 ltac:(unfold min_coin_amount in *; lia)).
    destruct (new_coins_one _ _ _ En) as (_ & _ & _ & _ & EC). destruct (Z.eqb_spec (offer_coin_amount d rp amt) 0); [lia|]. subst oc.
    exists pr, target, rp, s1. injection H as <-.
    repeat match goal with |- _ /\ _ => split end; auto; try lia; [|split; lia|rewrite E1, E2; reflexivity].
    unfold target_of. destruct typ.
    + destruct price as [px|]; [|discriminate Elim].
      assert (Et' : px = target) by (destruct d, (pr_last_price pr); congruence). subst px. split; [reflexivity|]. unfold price_allowed.
      destruct (pr_last_price pr) as [last|].
      * destruct (price_limits _ _ _) as [[lo hi]| |]; [|discriminate Elim|discriminate Elim]. cbn [of_res fst snd] in Elim.
        destruct (Z.ltb_spec hi target); [discriminate Elim|]. destruct (Z.ltb_spec target lo); [discriminate Elim|]. exists lo, hi. split; [lia|reflexivity].
      * unfold lowest_tick_chk in Elim. destruct (Z.ltb_spec 18 (pm_tick_prec (st_params s))); [discriminate Elim|]. cbn [fst snd] in Elim.
        destruct (Z.ltb_spec (highest_tick (pm_tick_prec (st_params s))) target); [discriminate Elim|]. destruct (Z.ltb_spec target (lowest_tick (pm_tick_prec (st_params s)))); [discriminate Elim|].
        eexists _, _. split; [|split; [assumption|split; reflexivity]]. lia.
    + destruct (pr_last_price pr) as [last|]; [|discriminate Elim]. exists last. split; [reflexivity|].
      destruct d; destruct (c_mul _ _); cbn [of_res] in Et; congruence.
    + destruct price as [px|]; [|discriminate Elim].
      assert (Et' : px = target) by (destruct d, (pr_last_price pr); congruence). subst px. split; [reflexivity|]. unfold price_allowed.
      destruct (pr_last_price pr) as [last|].
      * destruct (price_limits _ _ _) as [[lo hi]| |]; [|discriminate Elim|discriminate Elim]. cbn [of_res fst snd] in Elim.
        destruct (Z.ltb_spec hi target); [discriminate Elim|]. destruct (Z.ltb_spec target lo); [discriminate Elim|]. exists lo, hi. split; [lia|reflexivity].
      * unfold lowest_tick_chk in Elim. destruct (Z.ltb_spec 18 (pm_tick_prec (st_params s))); [discriminate Elim|]. cbn [fst snd] in Elim.
        destruct (Z.ltb_spec (highest_tick (pm_tick_prec (st_params s))) target); [discriminate Elim|]. destruct (Z.ltb_spec target (lowest_tick (pm_tick_prec (st_params s)))); [discriminate Elim|].
        eexists _, _. split; [|split; [assumption|split; reflexivity]]. lia.
  - intros (pr & target & rp & s1 & Ep & Eb & El & Et & Er & E1 & E2 & Eo & P & Big & Sd & ->). unfold place_order. cbn zeta.
    destruct (Z.ltb_spec (bal (st_bank s) (User u) od) offer); [lia|]. destruct (Z.ltb_spec (pm_max_lifespan (st_params s)) l); [lia|]. rewrite Ep.
    assert (L1 : (match typ, price with
             | TMarket, _ => if is_some (pr_last_price pr) then Some tt else None
             | _, None => None
             | _, Some px =>
                 do lim <- (match pr_last_price pr with
                            | Some last => of_res (price_limits last (pm_price_ratio (st_params s)) (pm_tick_prec (st_params s)))
                            | None => do lo <- lowest_tick_chk (pm_tick_prec (st_params s)); Some (lo, highest_tick (pm_tick_prec (st_params s)))
                            end);
                 if (snd lim <? px) || (px <? fst lim) then None else Some tt
             end) = Some tt).
    { assert (PA : price_allowed s pr target -> (do lim <- (match pr_last_price pr with
                            | Some last => of_res (price_limits last (pm_price_ratio (st_params s)) (pm_tick_prec (st_params s)))
                            | None => do lo <- lowest_tick_chk (pm_tick_prec (st_params s)); Some (lo, highest_tick (pm_tick_prec (st_params s)))
                            end);
                 if (snd lim <? target) || (target <? fst lim) then None else Some tt) = Some tt).
      { intros (lo & hi & B & X). destruct (pr_last_price pr) as [last|].
        - rewrite X. cbn [of_res fst snd]. destruct (Z.ltb_spec hi target); [lia|]. destruct (Z.ltb_spec target lo); [lia|]. reflexivity.
        - destruct X as (X & -> & ->). unfold lowest_tick_chk. destruct (Z.ltb_spec 18 (pm_tick_prec (st_params s))); [lia|]. cbn [fst snd].
          destruct (Z.ltb_spec (highest_tick (pm_tick_prec (st_params s))) target); [lia|]. destruct (Z.ltb_spec target (lowest_tick (pm_tick_prec (st_params s)))); [lia|]. reflexivity. }
      unfold target_of in Et. destruct typ.
      - destruct Et as [-> Et]. exact (PA Et).
      - destruct Et as (last & -> & _). destruct price; reflexivity.
      - destruct Et as [-> Et]. exact (PA Et). }
    rewrite L1. clear L1.
    assert (L2 : (match d, typ, pr_last_price pr with
                  | Buy, TMarket, Some last => of_res (c_mul last (one_dec + pm_price_ratio (st_params s)))
                  | Sell, TMarket, Some last => of_res (c_mul last (one_dec - pm_price_ratio (st_params s)))
                  | _, _, _ => price
                  end) = Some target).
    { unfold target_of in Et. destruct typ; [destruct Et as [-> _]; destruct d, (pr_last_price pr); reflexivity| |destruct Et as [-> _]; destruct d, (pr_last_price pr); reflexivity].
      destruct Et as (last & -> & Et). destruct d; rewrite Et; reflexivity. }
    rewrite L2. clear L2. unfold rounded in Er. rewrite Er. cbn [of_res].
    assert (L3 : negb (match d with
             | Buy => denom_eqb od (pr_quote pr) && denom_eqb dd (pr_base pr)
             | Sell => denom_eqb od (pr_base pr) && denom_eqb dd (pr_quote pr)
             end) = false) by (subst od dd; destruct d; cbn [offer_denom_of demand_denom_of]; rewrite !denom_eqb_refl; reflexivity).
    rewrite L3. clear L3. assert (0 < amt) by (destruct Big as [B _]; assert (0 < min_coin_amount) by reflexivity; lia).
    pose proof (offer_coin_amount_pos d rp amt P ltac:(lia)). destruct (Z.ltb_spec (offer_coin_amount d rp amt) 0); [lia|]. destruct (Z.ltb_spec offer (offer_coin_amount d rp amt)); [lia|].
    rewrite (proj2 (too_small_iff amt rp P) Big). cbn [of_res].
    assert (En : new_coins [(od, offer_coin_amount d rp amt)] = Some [(od, offer_coin_amount d rp amt)]).
    { destruct (new_coins_one_ok od (offer_coin_amount d rp amt) ltac:(lia)) as (r & En). rewrite En. destruct (new_coins_one _ _ _ En) as (_ & _ & _ & _ & ->). destruct (Z.eqb_spec (offer_coin_amount d rp amt) 0); [lia|reflexivity]. }
    rewrite En, Sd. unfold final_state, new_korder. rewrite E1, E2. reflexivity.
Qed.

Definition with_mm (s0 : state) (typ : otype) (u i : Z) (s : state) : state := match typ with TMM => set_mm_count s (User u) i (st_mm s0 (User u) i + 1) | _ => s end.
Lemma final_placed s s1 typ u pr d rp amt l : str s -> get_pair s (pr_id pr) = Some pr ->
  st_send s (User u) (PairEscrow (pr_id pr)) [(offer_denom_of pr d, offer_coin_amount d rp amt)] = Some s1 ->
  order_placed s (with_mm s typ u (pr_id pr) (final_state s1 s typ u pr d rp amt l)) pr (new_korder s typ u pr d rp amt l).
Proof.
  intros S Gp H. apply st_send_spec in H. destruct H as (b & -> & H). destruct (send_spec _ _ _ _ _ H) as (_ & (M1 & M2) & _).
  assert (Fr : get_order s (pr_id pr) (pr_last_order pr + 1) = None).
  { destruct (get_order s (pr_id pr) (pr_last_order pr + 1)) as [q|] eqn:E; [|reflexivity].
    destruct (i_orders _ S _ _ E) as (A & q2 & B & C). injection A as A1 A2. rewrite <- A1, Gp in B. injection B as <-. unfold order_ok in C. lia. }
  assert (EB : st_bank (with_mm s typ u (pr_id pr) (final_state (set_bank s b) s typ u pr d rp amt l)) = b) by (destruct typ; reflexivity).
  unfold order_placed. rewrite EB. cbn [new_korder ko_pair ko_id ko_offer_denom ko_demand_denom ko_offer ko_dir ko_price ko_amt ko_remaining ko_received ko_open ko_batch ko_height ko_status ko_owner ko_type].
  repeat match goal with |- _ /\ _ => split end; try reflexivity; try (destruct typ; reflexivity).
  - intros a e. rewrite M1. cbn [amount_of]. unfold at_acc, of_denom. destruct (addr_eqb a (User u)), (addr_eqb a (PairEscrow (pr_id pr))); lia.
  - exact M2.
  - exact Fr.
  - intros j k. transitivity (mget (mset (st_orders s) (pr_id pr, pr_last_order pr + 1) (new_korder s typ u pr d rp amt l)) (j, k)); [destruct typ; reflexivity|].
    destruct (Z.eqb_spec j (pr_id pr)) as [->|N]; cbn [andb]; [destruct (Z.eqb_spec k (pr_last_order pr + 1)) as [->|N]|].
    + apply mget_mset_eq.
    + apply mget_mset_neq. congruence.
    + apply mget_mset_neq. congruence.
  - intros j. transitivity (mget (mset (st_pairs s) (pr_id pr, 0) (mkPair (pr_id pr) (pr_base pr) (pr_quote pr) (pr_last_order pr + 1) (pr_last_price pr) (pr_batch pr))) (j, 0)); [destruct typ; reflexivity|].
    destruct (Z.eqb_spec j (pr_id pr)) as [->|N]; [apply mget_mset_eq|apply mget_mset_neq; congruence].
  - intros a j. destruct typ; cbn [with_mm]; [rewrite andb_false_r; cbn; lia|rewrite andb_false_r; cbn; lia|]. rewrite andb_true_r. unfold set_mm_count. cbn [st_mm set_mm].
    destruct (addr_eqb_spec a (User u)) as [->|]; cbn [andb]; [|cbn; lia]. destruct (Z.eqb_spec j (pr_id pr)) as [->|]; cbn; lia.
Qed.

Lemma offer_mono d p q amt : 0 <= amt -> 0 <= p <= q -> offer_coin_amount d p amt <= offer_coin_amount d q amt.
Proof.
  intros A P. destruct d; [|reflexivity].
  destruct (offer_coin_least Buy p amt ltac:(lia) A) as [_ L]. apply L. destruct (offer_coin_least Buy q amt ltac:(lia) A) as [L2 _]. nia.
Qed.
Lemma rounded_tick d prec target rp : 0 <= prec -> 0 < target -> (rounded d prec target rp <-> tick_for d prec target rp).
Proof.
  intros Hp Ht. unfold rounded, tick_for, price_to_down_tick_chk, price_to_up_tick_chk. destruct (Z.eqb_spec target 0); [lia|].
  assert (U : forall (P : Z -> Prop) a b, (forall x y, P x -> P y -> x = y) -> P a -> (Ok a = Ok b <-> P b)).
  { intros P a b Hu Ha. split; [intros E; injection E as <-; exact Ha|intros Hb; f_equal; apply Hu; assumption]. }
  destruct d.
  - apply (U (greatest_tick_le prec target)); [|apply price_to_down_tick_spec; assumption]. intros x y (A1 & A2 & A3) (B1 & B2 & B3). pose proof (A3 y B1 B2). pose proof (B3 x A1 A2). lia.
  - apply (U (least_tick_ge prec target)); [|apply price_to_up_tick_spec; assumption]. intros x y (A1 & A2 & A3) (B1 & B2 & B3). pose proof (A3 y B1 B2). pose proof (B3 x A1 A2). lia.
Qed.
Lemma tick_for_pos d prec t x : tick_for d prec t x -> 0 < x.
Proof. destruct d; intros (A & _); exact (tick_pos _ _ A). Qed.
Lemma reach_params Q s : reach (sane Q) (InBlock, s) -> 0 <= pm_tick_prec (st_params s) /\ 0 <= pm_price_ratio (st_params s) < P18.
Proof.
  intros R. pose proof (reach_okp Q _ R) as I. cbn [snd] in I. destruct (v_params _ _ I) as [V [_ A]]. unfold valid_params in V. unfold sane_ratio in A. lia.
Qed.
Lemma send_exact s u pr d rp amt : 0 < rp -> big_enough rp amt -> (exists s1, st_send s (User u) (PairEscrow (pr_id pr)) [(offer_denom_of pr d, offer_coin_amount d rp amt)] = Some s1) <->
  offer_coin_amount d rp amt <= bal (st_bank s) (User u) (offer_denom_of pr d).
Proof.
  intros P [A _]. assert (X : 0 < offer_coin_amount d rp amt) by (apply offer_coin_amount_pos; [assumption|]; assert (0 < min_coin_amount) by reflexivity; lia). split.
  - intros (s1 & H). apply st_send_spec in H. destruct H as (b & _ & H). destruct (send_spec _ _ _ _ _ H) as (_ & _ & L). specialize (L (offer_denom_of pr d)). cbn [amount_of] in L. rewrite denom_eqb_refl in L. lia.
  - intros L. unfold st_send. destruct (send_ok (st_bank s) (User u) (PairEscrow (pr_id pr)) [(offer_denom_of pr d, offer_coin_amount d rp amt)]) as (b & ->); [|intros e; cbn [amount_of]; destruct (denom_eqb_spec e (offer_denom_of pr d)) as [->|]; lia|eauto].
    cbn [valid_coins has_denom existsb negb]. rewrite (proj2 (Z.ltb_lt _ _) X). reflexivity.
Qed.

Lemma limit_place Q s typ u i d od offer dd price amt l s' : reach (sane Q) (InBlock, s) -> typ <> TMarket ->
  validate_basic (MLimitOrder u i d od offer dd price amt l) = true -> place_order s typ u i d od offer dd (Some price) amt l = Some s' ->
  exists pr rp, limit_terms s u i d od offer dd price amt l pr rp /\ order_placed s (with_mm s typ u i s') pr (new_korder s typ u pr d rp amt l) /\ offer_coin_amount d rp amt <= offer.
Proof.
  intros R Nt V H. pose proof (reach_str Q _ R) as S. cbn [snd] in S. destruct (reach_params Q s R) as [Hp Hr]. apply (place_order_iff _ _ _ _ _ _ _ _ _ _ _ _ S) in H.
  destruct H as (pr & target & rp & s1 & G & Eb & El & Et & Er & E1 & E2 & Eo & P & Big & Sd & ->).
  cbn [validate_basic] in V. unfold amt_in_range in V. rewrite !andb_true_iff in V. destruct V as ((((((V1 & V2) & V3) & V4) & V5) & V6) & V7).
  assert (X : price = target /\ price_allowed s pr target) by (destruct typ; [destruct Et as [E Et]; injection E as <-; auto|congruence|destruct Et as [E Et]; injection E as <-; auto]).
  destruct X as [<- PA]. pose proof (get_pair_id _ _ _ S G) as Ei. exists pr, rp. split; [|split; [|assumption]].
  - unfold limit_terms. repeat match goal with |- _ /\ _ => split end; auto; try lia; try (apply Big). apply rounded_tick; [assumption|lia|assumption].
  - rewrite <- Ei. rewrite E1 in Sd. apply final_placed; [assumption|rewrite Ei; assumption|assumption].
Qed.
Lemma limit_accept Q s typ u i d od offer dd price amt l pr rp : reach (sane Q) (InBlock, s) -> typ <> TMarket -> limit_terms s u i d od offer dd price amt l pr rp ->
  validate_basic (MLimitOrder u i d od offer dd price amt l) = true /\ exists s', place_order s typ u i d od offer dd (Some price) amt l = Some s'.
Proof.
  intros R Nt (G & E1 & E2 & P & PA & Tk & A1 & A2 & A3 & A5 & Big & L). pose proof (reach_str Q _ R) as S. cbn [snd] in S. destruct (reach_params Q s R) as [Hp Hr].
  pose proof (get_pair_id _ _ _ S G) as Ei. destruct (i_pairs _ S _ _ G) as (_ & Hi & Ne & _). pose proof (tick_for_pos _ _ _ _ Tk) as Prp.
  assert (Am : min_coin_amount <= amt) by apply Big. assert (0 < min_coin_amount) by reflexivity.
  split.
  - cbn [validate_basic]. unfold amt_in_range. rewrite !andb_true_iff, !Z.leb_le, Z.ltb_lt. assert (Nd : denom_eqb od dd = false).
    { destruct (denom_eqb_spec od dd) as [E|]; [|reflexivity]. exfalso. subst od dd. destruct d; cbn in E; congruence. }
    rewrite Nd. destruct (Z.eqb_spec i 0); [lia|]. repeat split; lia.
  - assert (Le : offer_coin_amount d rp amt <= offer).
    { destruct d; [|exact A3]. etransitivity; [apply offer_mono|exact A3]; [lia|]. destruct Tk as (_ & X & _). lia. }
    destruct (proj2 (send_exact s u pr d rp amt Prp Big)) as (s1 & Sd); [change (offer_denom_of pr d) with (offered_denom pr d); rewrite <- E1; lia|].
    eexists. apply (place_order_iff _ _ _ _ _ _ _ _ _ _ _ _ S). exists pr, price, rp, s1. repeat match goal with |- _ /\ _ => split end; auto; try lia; try (apply Big).
    + destruct typ; [split; [reflexivity|assumption]|congruence|split; [reflexivity|assumption]].
    + apply rounded_tick; [assumption|lia|assumption].
    + rewrite E1. exact Sd.
Qed.

Lemma market_place Q s u i d od offer dd amt l s' : reach (sane Q) (InBlock, s) ->
  deliver s (MMarketOrder u i d od offer dd amt l) = Some s' ->
  exists pr last target rp, market_terms s u i d od offer dd amt l pr last target rp /\ order_placed s s' pr (new_korder s TMarket u pr d rp amt l).
Proof.
  intros R H. pose proof (reach_str Q _ R) as S. cbn [snd] in S. destruct (reach_params Q s R) as [Hp Hr]. unfold deliver in H. destruct (validate_basic _) eqn:V; [|discriminate H]. cbn [handle] in H.
  apply (place_order_iff _ _ _ _ _ _ _ _ _ _ _ _ S) in H.
  destruct H as (pr & target & rp & s1 & G & Eb & El & (last & Elast & Et) & Er & E1 & E2 & Eo & P & Big & Sd & ->).
  cbn [validate_basic] in V. unfold amt_in_range in V. rewrite !andb_true_iff in V.
  pose proof (get_pair_id _ _ _ S G) as Ei. destruct (i_pairs _ S _ _ G) as (_ & _ & _ & _ & _ & Pl & _). specialize (Pl last Elast).
  assert (T0 : 0 <= target < 2 ^ 315 /\ target = dmul last (match d with Buy => P18 + pm_price_ratio (st_params s) | Sell => P18 - pm_price_ratio (st_params s) end)).
  { unfold c_mul in Et. apply chk_dec_ok in Et. destruct Et as [-> B]. split; [split; [apply chop_round_nonneg|]|]; [pose proof P18_pos; unfold one_dec; destruct d; nia|lia|destruct d; reflexivity]. }
  destruct T0 as [T0 T1].
  assert (T2 : target <> 0) by (intros ->; unfold rounded, price_to_down_tick_chk, price_to_up_tick_chk in Er; destruct d; discriminate Er).
  exists pr, last, target, rp. split.
  - unfold market_terms. repeat match goal with |- _ /\ _ => split end; auto; try lia; try (apply Big). apply rounded_tick; [assumption|lia|assumption].
  - change (final_state s1 s TMarket u pr d rp amt l) with (with_mm s TMarket u (pr_id pr) (final_state s1 s TMarket u pr d rp amt l)). rewrite E1 in Sd. apply final_placed; [assumption|rewrite Ei; assumption|assumption].
Qed.
Lemma market_accept Q s u i d od offer dd amt l pr last target rp : reach (sane Q) (InBlock, s) -> market_terms s u i d od offer dd amt l pr last target rp ->
  exists s', deliver s (MMarketOrder u i d od offer dd amt l) = Some s'.
Proof.
  intros R (G & E1 & E2 & Pl & Et & P & Tk & A1 & A2 & A3 & A5 & Big & L). pose proof (reach_str Q _ R) as S. cbn [snd] in S. destruct (reach_params Q s R) as [Hp Hr].
  pose proof (get_pair_id _ _ _ S G) as Ei. destruct (i_pairs _ S _ _ G) as (_ & Hi & Ne & _). pose proof (tick_for_pos _ _ _ _ Tk) as Prp.
  assert (Am : min_coin_amount <= amt) by apply Big. assert (0 < min_coin_amount) by reflexivity.
  assert (V : validate_basic (MMarketOrder u i d od offer dd amt l) = true).
  { cbn [validate_basic]. unfold amt_in_range. rewrite !andb_true_iff, !Z.leb_le. assert (Nd : denom_eqb od dd = false).
    { destruct (denom_eqb_spec od dd) as [E|]; [|reflexivity]. exfalso. subst od dd. destruct d; cbn in E; congruence. }
    rewrite Nd. destruct (Z.eqb_spec i 0); [lia|]. repeat split; lia. }
  unfold deliver. rewrite V. cbn [handle].
  destruct (proj2 (send_exact s u pr d rp amt Prp Big)) as (s1 & Sd); [change (offer_denom_of pr d) with (offered_denom pr d); rewrite <- E1; lia|].
  eexists. apply (place_order_iff _ _ _ _ _ _ _ _ _ _ _ _ S). exists pr, target, rp, s1. repeat match goal with |- _ /\ _ => split end; auto; try lia; try (apply Big).
  - exists last. split; [assumption|]. unfold c_mul. rewrite chk_dec_fits; [rewrite Et; destruct d; reflexivity|]. change one_dec with P18. destruct d; rewrite <- Et; lia.
  - apply rounded_tick; [assumption|lia|assumption].
  - rewrite E1. exact Sd.
Qed.
Lemma market_band Q s u i d od offer dd amt l pr last target rp : reach (sane Q) (InBlock, s) -> market_terms s u i d od offer dd amt l pr last target rp ->
  is_tick (pm_tick_prec (st_params s)) rp /\
  match d with
  | Buy => 2 * rp * P18 <= 2 * last * (P18 + pm_price_ratio (st_params s)) + P18 /\
           forall t, is_tick (pm_tick_prec (st_params s)) t -> t * P18 <= last * (P18 + pm_price_ratio (st_params s)) -> t <= rp
  | Sell => 2 * last * (P18 - pm_price_ratio (st_params s)) - P18 <= 2 * rp * P18 /\
           forall t, is_tick (pm_tick_prec (st_params s)) t -> last * (P18 - pm_price_ratio (st_params s)) <= t * P18 -> rp <= t
  end.
Proof.
  intros R (G & E1 & E2 & Pl & Et & P & Tk & _). pose proof (reach_str Q _ R) as S. cbn [snd] in S. destruct (reach_params Q s R) as [Hp Hr].
  destruct (i_pairs _ S _ _ G) as (_ & _ & _ & _ & _ & L0 & _). specialize (L0 last Pl). pose proof P18_pos as HP. unfold dmul in Et. destruct d; destruct Tk as (T1 & T2 & T3); (split; [exact T1|]).
  - pose proof (chop_round_bounds (last * (P18 + pm_price_ratio (st_params s))) ltac:(nia)) as B. rewrite <- Et in B. split; [nia|].
    intros t Tt Ht. apply T3; [assumption|]. rewrite Et. rewrite <- (chop_round_exact t). apply chop_round_mono; [|lia]. pose proof (tick_pos _ _ Tt). nia.
  - pose proof (chop_round_bounds (last * (P18 - pm_price_ratio (st_params s))) ltac:(nia)) as B. rewrite <- Et in B. split; [nia|].
    intros t Tt Ht. apply T3; [assumption|]. rewrite Et. rewrite <- (chop_round_exact t). apply chop_round_mono; nia.
Qed.
