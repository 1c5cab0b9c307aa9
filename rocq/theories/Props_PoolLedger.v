(** Property C79 (what a batch pays into and out of a pool's reserve) and C30 over whole batches. *)
From Verif Require Import Base Dec DecProofs TickModel TickSpec TickProofs OrderModel MatchModel MatchSpec MatchProofs OrderProofs PoolModel PoolProofs PoolOrderProofs KeeperModel KeeperLib KeeperSpec KeeperSpec2 LedgerSpec KeeperMicro KeeperBank KeeperSteps KeeperReqs KeeperOrders KeeperTrade KeeperInv KeeperHist KeeperSettle KeeperBlock KeeperExpire KeeperPairBatch IsoSpec KeeperExample ProductSpec PoolLedgerSpec PoolProduct PoolProduct2 KeeperPoolLedger KeeperPoolLedger2 Props_Keeper5 Props_Product Props_Frozen.

(** ** C79: a batch moves coins of a pool only as fills of the pool's own orders. *)

(** The requests waiting for pool [n]. *)
Definition nothing_waiting (s : state) (n : Z) : Prop :=
  (forall j r, mget (st_deps s) (n, j) = Some r -> dr_status r <> RNotExecuted) /\ (forall j r, mget (st_wds s) (n, j) = Some r -> wr_status r <> RNotExecuted).

(** After all pairs of a batch were matched (before deposits and withdrawals), the reserve of a pool is what
    it was, or the pool traded: it was active and not depleted, offered the orders its reserves called for,
    and exactly the fills of these orders were paid for, all in one direction. *)
Theorem C79_matching : forall (Q : params -> Prop) s s' n p pr, (forall x, Q x -> plain_collectors x) -> batch_runs Q s s' -> get_pool s n = Some p -> get_pair s (pl_pair p) = Some pr ->
  exists iter sm, is_perm_iter iter /\ all_matched iter s sm /\
    ((forall d, reserve sm n d = reserve s n d) \/
     exists mp ap bs ss fb fs, (exists pr', get_pair s' (pl_pair p) = Some pr' /\ pr_last_price pr' = Some mp) /\ traded s sm pr p mp ap bs ss fb fs).
Proof.
  intros Q s s' n p pr HC (R & HB & iter & Hi & HE) Gn Gp. pose proof (proj1 (okp_st (sane Q) STrade s) (reach_okp Q _ R)) as I.
  assert (HA : forall x, sane Q x -> sane_ratio x /\ plain_collectors x) by (intros x [X Y]; split; [exact Y|exact (HC x X)]).
  destruct (batch_pair Q iter Hi s s' R HB HE _ _ Gp) as (sa & sb & _).
  pose proof (batch_requests iter s s' HB HE) as H. unfold execute_requests in H. destruct (for_each _ (st_pairs s) s) as [sm|] eqn:E1; [|discriminate H].
  exists iter, sm. split; [exact Hi|]. split; [exact E1|]. destruct (matched_traded (sane Q) HA iter Hi n s sm p pr I Gn Gp E1) as [Im [U|(mp & ap & bs & ss & fb & fs & (pr' & G' & L') & T)]]; [left; exact U|right].
  exists mp, ap, bs, ss, fb, fs. split; [exists pr'; split; [|exact L']|exact T]. rewrite <- G'. unfold get_pair. f_equal.
  apply (inv_ctl _ SReq) in Im. cbn [allowed] in Im. destruct (for_each _ (st_orders sm) sm) as [s2|] eqn:E2; [|discriminate H].
  pose proof (expire_stage (mkCtl (sane Q) SReq) sm s2 (or_intror eq_refl) Im E2) as M2. pose proof (inv_mics _ _ _ M2 Im) as I2.
  destruct (for_each _ (st_deps s2) s2) as [s3|] eqn:E3; [|discriminate H]. pose proof (dep_stage (mkCtl (sane Q) SReq) s2 s3 eq_refl I2 E3) as M3. pose proof (inv_mics _ _ _ M3 I2) as I3.
  pose proof (wd_stage (mkCtl (sane Q) SReq) s3 s' eq_refl I3 H) as M4. rewrite (req_pairs_mics _ _ _ M4 eq_refl), (req_pairs_mics _ _ _ M3 eq_refl). exact (req_pairs_mics _ _ _ M2 eq_refl).
Qed.
Print Assumptions C79_matching.

(** When no deposit or withdrawal waits for the pool, this is all the batch does to its reserve. *)
Theorem C79_batch : forall (Q : params -> Prop) s s' n p pr, (forall x, Q x -> plain_collectors x) -> batch_runs Q s s' -> get_pool s n = Some p -> get_pair s (pl_pair p) = Some pr -> nothing_waiting s n ->
  (forall d, reserve s' n d = reserve s n d) \/
  exists mp ap bs ss fb fs, (exists pr', get_pair s' (pl_pair p) = Some pr' /\ pr_last_price pr' = Some mp) /\ traded s s' pr p mp ap bs ss fb fs.
Proof.
  intros Q s s' n p pr HC B Gn Gp [Wd Ww]. pose proof B as B0. destruct B as (R & HB & iter0 & Hi0 & HE0). pose proof (proj1 (okp_st (sane Q) STrade s) (reach_okp Q _ R)) as I.
  assert (HA : forall x, sane Q x -> sane_ratio x /\ plain_collectors x) by (intros x [X Y]; split; [exact Y|exact (HC x X)]).
  pose proof (batch_requests iter0 s s' HB HE0) as H. unfold execute_requests in H. destruct (for_each _ (st_pairs s) s) as [sm|] eqn:E1; [|discriminate H].
  destruct (matched_traded (sane Q) HA iter0 Hi0 n s sm p pr I Gn Gp E1) as [Im D].
  destruct (trade_keeps_reqs (mkCtl (sane Q) STrade) s sm (match_stage (mkCtl (sane Q) STrade) iter0 s sm Hi0 I (batch_sane Q) eq_refl E1) eq_refl) as [Ed Ew].
  apply (inv_ctl _ SReq) in Im. cbn [allowed] in Im. destruct (for_each _ (st_orders sm) sm) as [s2|] eqn:E2; [|discriminate H]. destruct (for_each _ (st_deps s2) s2) as [s3|] eqn:E3; [|discriminate H].
  rewrite <- Ed in Wd. rewrite <- Ew in Ww. pose proof (rest_reserve (sane Q) HA n sm s2 s3 s' Im Wd Ww E2 E3 H) as Rs.
  destruct D as [U|(mp & ap & bs & ss & fb & fs & (pr' & G' & L') & T)]; [left; intros d; rewrite Rs; apply U|right]. exists mp, ap, bs, ss, fb, fs. split.
  - exists pr'. split; [|exact L']. rewrite <- G'. unfold get_pair. f_equal. pose proof (expire_stage (mkCtl (sane Q) SReq) sm s2 (or_intror eq_refl) Im E2) as M2. pose proof (inv_mics _ _ _ M2 Im) as I2.
    pose proof (dep_stage (mkCtl (sane Q) SReq) s2 s3 eq_refl I2 E3) as M3. pose proof (inv_mics _ _ _ M3 I2) as I3.
    pose proof (wd_stage (mkCtl (sane Q) SReq) s3 s' eq_refl I3 H) as M4. rewrite (req_pairs_mics _ _ _ M4 eq_refl), (req_pairs_mics _ _ _ M3 eq_refl). exact (req_pairs_mics _ _ _ M2 eq_refl).
  - assert (En : pl_id p = n) by (destruct (i_pools _ (v_str _ _ I) _ _ Gn) as (X & _); injection X as ->; reflexivity).
    destruct T as [T1 T2 T3 T4 T5 T6 T7 T8 T9 T10]. constructor; [exact T1|exact T2|exact T3|exact T4|exact T5|exact T6|exact T7|rewrite <- T8|rewrite <- T9|intros d N1 N2; rewrite <- (T10 d N1 N2)]; rewrite En; apply Rs.
Qed.
Print Assumptions C79_batch.

(** No fill: nothing moved. *)
Lemma no_fills_none (fss : list (list (Z * dec))) : fills_all fss = 0 -> base_all fss = 0 /\ cost_all fss = 0 /\ gain_all fss = 0.
Proof.
  unfold fills_all, base_all, cost_all, gain_all. induction fss as [|fs fss IH]; [auto|]. cbn [map]. rewrite !sumZ_cons. intros H.
  assert (0 <= sumZ (map (fun fs : list (Z * dec) => Z.of_nat (length fs)) fss)) by (apply sumZ_nonneg; intros x X; apply in_map_iff in X; destruct X as (y & <- & _); lia).
  destruct fs; [|cbn [length] in H; lia]. cbn [length] in H. destruct (IH ltac:(lia)) as (-> & -> & ->). auto.
Qed.

(** ** C30 over a whole batch.  A basic pool of a pair with a last price comes out of a batch with the product
    of its reserves kept, up to one quote coin per fill (and [E] if its price was outside the price limits). *)
Theorem C30_batch_partial : forall (Q : params -> Prop) s s' n p pr l lo hi pp E, (forall x, Q x -> plain_collectors x) -> batch_runs Q s s' -> get_pool s n = Some p -> get_pair s (pl_pair p) = Some pr -> nothing_waiting s n ->
  pl_kind p = PBasic -> pr_last_price pr = Some l -> price_limits l (pm_price_ratio (st_params s)) (pm_tick_prec (st_params s)) = Ok (lo, hi) -> lo <= hi <= P18 * P18 ->
  let x := reserve s n (pr_quote pr) in let y := reserve s n (pr_base pr) in let x' := reserve s' n (pr_quote pr) in let y' := reserve s' n (pr_base pr) in
  x <= 10 ^ 40 -> y <= 10 ^ 40 -> pool_price (Basic x y (supply (st_bank s) (PoolCoin n))) = Ok pp -> 0 <= E -> lo <= pp <= hi \/ (sized x y lo E /\ sized x y hi E) ->
  x' = x /\ y' = y \/
  exists mp ap bs ss fb fs, traded s s' pr p mp ap bs ss fb fs /\ 0 <= x' /\ 0 <= y' /\
    (fills_all fs = 0 /\ x * y <= (x' + fills_all fb + E) * y' \/ fills_all fb = 0 /\ x * y <= x' * y' + (fills_all fs + E) * y).
Proof.
  intros Q s s' n p pr l lo hi pp E HC B Gn Gp NW Kb Ll El Hhi x y x' y' Hx Hy Epp HE Sz.
  destruct (C79_batch Q s s' n p pr HC B Gn Gp NW) as [U|(mp & ap & bs & ss & fb & fs & _ & T)]; [left; split; apply U|right].
  exists mp, ap, bs, ss, fb, fs. split; [exact T|]. pose proof B as (R & _). pose proof (proj1 (okp_st (sane Q) STrade s) (reach_okp Q _ R)) as I.
  assert (En : pl_id p = n) by (destruct (i_pools _ (v_str _ _ I) _ _ Gn) as (X & _); injection X as ->; reflexivity).
  destruct T as [T1 T2 T3 T4 T5 T6 T7 T8 T9 T10]. rewrite En in T2, T8, T9. unfold amm_pool in T2. rewrite Kb in T2. fold x y in T2. injection T2 as <-. rewrite Ll in T4. destruct T4 as (lo' & hi' & El' & Ob & Os). rewrite El in El'. injection El' as <- <-.
  fold x' x in T8. fold y' y in T9.
  destruct (v_params _ _ I) as [Vp Qp]. unfold valid_params in Vp. rewrite !andb_true_iff in Vp.
  assert (Hprec : 0 <= pm_tick_prec (st_params s)) by lia. assert (Hrat : 0 <= pm_price_ratio (st_params s) < P18) by (split; [lia|apply (batch_sane Q); exact Qp]).
  destruct (i_pairs _ (v_str _ _ I) _ _ Gp) as (_ & _ & _ & _ & _ & Lp & _).
  destruct (price_limits_spec _ _ _ _ _ Hprec (Lp _ Ll) Hrat El) as (Tl & Th & Hlh).
  assert (Xp : 0 <= x /\ 0 <= y) by (split; apply (v_bank _ _ I)).
  assert (Xq : 0 < x /\ 0 < y) by (cbn in T3; rewrite !orb_false_iff in T3; lia).
  pose proof (tick_pos _ _ Tl) as Plo.
  assert (Xn : 0 <= x' /\ 0 <= y').
  { destruct B as (_ & _ & iter & Hi & HE'). pose proof (reach_okp Q _ (reach_step _ _ _ R (Step_end _ iter s s' Hi HE'))) as I'. split; apply (v_bank _ _ I'). }
  split; [apply Xn|]. split; [apply Xn|].
  destruct T7 as [F0|F0]; destruct (no_fills_none _ F0) as (N1 & N2 & N3); rewrite ?N1, ?N2, ?N3 in T8, T9.
  - destruct (C30_all_sells_partial x y _ lo hi _ pp ss fs E Hprec ltac:(lia) ltac:(lia) Tl ltac:(lia) ltac:(lia) Epp HE ltac:(intuition lia) Os T6) as [Z1 Z2].
    right. split; [exact F0|]. replace x' with (x + gain_all fs) by lia. replace y' with (y - base_all fs) by lia. exact Z2.
  - destruct (C30_all_buys_partial x y _ lo hi _ pp bs fb E Hprec ltac:(lia) Th ltac:(lia) ltac:(lia) Epp HE ltac:(intuition lia) Ob T5) as [Z1 Z2].
    left. split; [exact F0|]. replace x' with (x - cost_all fb) by lia. replace y' with (y + base_all fb) by lia. exact Z2.
Qed.
Print Assumptions C30_batch_partial.

(** A pool sells to a buyer in the first batch of its pair and to another one in the next batch. *)
Definition pool_trade1 : list action := pools1 ++ [AMsg (MLimitOrder 2 1 Buy (Coin 2) 1000000 (Coin 1) (P18 * 51 / 100) 1000000 3600)].
Definition pool_trade2 : list action := pool_trade1 ++ [AEnd; ABegin 15; AMsg (MLimitOrder 3 1 Buy (Coin 2) 1000000 (Coin 1) (P18 * 53 / 100) 1500000 3600)].
Definition sells_check (first : bool) (s : state) : bool :=
  match get_pair s 1, get_pool s 1, end_block idl s with
  | Some pr, Some p, Some s' =>
      let x := reserve s 1 (Coin 2) in let y := reserve s 1 (Coin 1) in let x' := reserve s' 1 (Coin 2) in let y' := reserve s' 1 (Coin 1) in
      (pl_pair p =? 1) && (match pl_kind p with PBasic => true | _ => false end) && (match st_deps s, st_wds s with [], [] => true | _, _ => false end) && (x <? x') && (y' <? y) && (x' <=? 10 ^ 40) && (y <=? 10 ^ 40) &&
      match pr_last_price pr with
      | None => first
      | Some l => negb first && match price_limits l (pm_price_ratio (st_params s)) (pm_tick_prec (st_params s)), pool_price (Basic x y (supply (st_bank s) (PoolCoin 1))) with
                  | Ok (lo, hi), Ok pp => (lo <=? pp) && (pp <=? hi) && (hi <=? P18 * P18) | _, _ => false end
      end
  | _, _, _ => false
  end.
Example C79_example : (forall l, reach (sane plain_collectors) (after 1 l)) /\ sells_check true (snd (after 1 pool_trade1)) && sells_check false (snd (after 1 pool_trade2)) = true.
Proof. split; [apply plain_start|vm_compute; reflexivity]. Qed.
