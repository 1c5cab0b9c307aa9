(** Orders that do not cross rest (C88): proofs. *)
From Verif Require Import Base Dec DecProofs TickModel TickSpec TickProofs OrderModel MatchModel MatchSpec OrderProofs MatchProofs MatchLoopProofs MatchBookProofs MatchTop KeyedProofs ViewProofs SingleProofs CrossProofs MatchClear PoolModel PoolProofs PoolOrderProofs KeeperModel KeeperLib KeeperSpec KeeperSpec2 LedgerSpec KeeperMicro KeeperBank KeeperSteps KeeperReqs KeeperOrders KeeperBulk KeeperTrade KeeperInv KeeperHist KeeperSettle KeeperBlock KeeperExpire KeeperPairBatch IsoSpec KeeperIso KeeperIso2 KeeperIso3 KeeperHalt GenesisProofs KeeperClear PoolLedgerSpec KeeperPoolLedger KeeperPoolLedger2 QueryModel.

(** Every buy order is priced below every sell order. *)
Definition apart (h : list order) : Prop := forall b v, In b h -> In v h -> o_dir b = Buy -> o_dir v = Sell -> o_price b < o_price v.

Section Engine.
  Variable iter : list (nat * Z) -> list (nat * Z).
  Hypothesis Hiter : is_perm_iter iter.

  Lemma apart_ticks (h : heap) b v : wf_heap h -> apart h -> In b (buys (new_order_book h)) -> In v (sells (new_order_book h)) -> fst b < fst v.
  Proof.
    intros Hwf A Hb Hv. destruct (new_order_book_ok h) as [KB KS]. destruct (keyed_contents h Buy false _ KB) as (_ & _ & _ & CB). destruct (keyed_contents h Sell true _ KS) as (_ & _ & _ & CS).
    destruct b as [x bs], v as [y vs]. destruct (CB x bs Hb) as (Nb & _ & Mb). destruct (CS y vs Hv) as (Nv & _ & Mv).
    destruct bs as [|p bs]; [destruct (Nb eq_refl)|]. destruct vs as [|q vs]; [destruct (Nv eq_refl)|].
    destruct (proj1 (Mb p) (or_introl eq_refl)) as ((Lp & Dp & _) & <-). destruct (proj1 (Mv q) (or_introl eq_refl)) as ((Lq & Dq & _) & <-). cbn [fst].
    apply A; [apply nth_In; exact Lp|apply nth_In; exact Lq|exact Dp|exact Dq].
  Qed.
  Lemma apart_single (h : heap) p : Forall wf_order h -> 0 < p -> apart h -> match_single iter h (new_order_book h) p = Some None.
  Proof.
    intros Hf Hp A. pose proof (proj1 (wf_heap_Forall h) Hf) as Hwf. destruct (book_side_wf h Hwf) as [WB WS].
    destruct (match_single_ok iter Hiter h (new_order_book h) p Hwf Hp WB WS) as ([[h' qd]|] & E & X); [exfalso|exact E].
    destruct X as (tr & _ & _ & _ & m & _ & Hm & _ & _ & _ & Tb & Ts & _).
    destruct (side_prefix false p (buys (new_order_book h))) as [|b bl] eqn:Eb; [unfold side_total in Tb; cbn in Tb; lia|].
    destruct (side_prefix true p (sells (new_order_book h))) as [|v vl] eqn:Es; [unfold side_total in Ts; cbn in Ts; lia|].
    pose proof (side_prefix_accept false p (buys (new_order_book h)) b ltac:(rewrite Eb; left; reflexivity)) as Ab.
    pose proof (side_prefix_accept true p (sells (new_order_book h)) v ltac:(rewrite Es; left; reflexivity)) as As. cbv iota in Ab, As.
    destruct (side_prefix_app false p (buys (new_order_book h))) as [r1 E1]. destruct (side_prefix_app true p (sells (new_order_book h))) as [r2 E2].
    pose proof (apart_ticks h b v Hwf A ltac:(rewrite E1, Eb; left; reflexivity) ltac:(rewrite E2, Es; left; reflexivity)) as L. lia.
  Qed.
  Lemma apart_book (h : heap) last : Forall wf_order h -> 0 < last -> apart h -> match_book iter h (new_order_book h) last = Some (h, last, 0, false).
  Proof.
    intros Hf Hl A. pose proof (proj1 (wf_heap_Forall h) Hf) as Hwf. pose proof (apart_ticks h) as T. unfold match_book. rewrite (apart_single h last Hf Hl A).
    destruct (buys (new_order_book h)) as [|b bl] eqn:Eb; [reflexivity|]. destruct (sells (new_order_book h)) as [|v vl] eqn:Es; [reflexivity|]. cbv zeta iota beta.
    pose proof (T b v Hwf A ltac:(left; reflexivity) ltac:(left; reflexivity)) as L. cbn [match_loop]. destruct (Z.leb_spec (fst v) (fst b)) as [X|_]; [lia|]. destruct (price_direction h (new_order_book h) last); reflexivity.
  Qed.
End Engine.

(** ** Pool orders lie on their side of the pool price, also when the price limits are empty *)
Lemma pool_buy_side p lo hi prec os pp : 0 <= prec -> is_tick prec lo -> is_tick prec hi -> 0 <= p_rx p -> 0 <= p_ry p ->
  pool_buy_orders p lo hi prec = Some os -> (forall x, pool_price p = Ok x -> x = pp) -> Forall (fun o => fst o < pp) os.
Proof.
  intros Hp Tl Th Rx Ry H Hpp. pose proof (tick_pos _ _ Tl). pose proof (tick_pos _ _ Th).
  destruct (pool_price p) as [x| |] eqn:Epp; [|unfold pool_buy_orders in H; rewrite Epp in H; destruct (buy_start _ _ _ _) as [[?|]| |]; injection H as <-; constructor ..].
  rewrite (Hpp x eq_refl) in Epp. clear Hpp x. destruct (Z_le_gt_dec lo hi) as [L|G].
  - destruct (pool_buy_orders_spec p lo hi prec pp Hp ltac:(lia) Th Rx Ry Epp) as [S _]. destruct (S os H) as (_ & F & _). eapply Forall_impl; [|exact F]. intros o (_ & _ & X & _). exact X.
  - unfold pool_buy_orders in H. rewrite Epp in H. destruct (buy_start p lo hi prec) as [[s|]| |] eqn:ES; try (injection H as <-; constructor).
    unfold buy_start in ES. rewrite Epp in ES. cbn [rbind] in ES. destruct (Z.leb_spec pp lo); [discriminate ES|].
    apply rbind_ok in ES. destruct ES as ([p1 os1] & E1 & ES). apply rbind_ok in ES. destruct ES as (pp1 & Epp1 & ES). apply rbind_ok in ES. destruct ES as (tick & Et & ES). injection ES as <-.
    assert (Ht : tick < lo).
    { unfold price_to_down_tick_chk in Et. destruct (Z.eqb_spec (Z.min hi pp1) 0) as [|N]; [discriminate Et|]. injection Et as <-. destruct (Z_lt_le_dec 0 (Z.min hi pp1)) as [L1|L1].
      - destruct (price_to_down_tick_spec (Z.min hi pp1) prec Hp L1) as (_ & D & _). lia.
      - pose proof (neg_down_tick (Z.min hi pp1) prec ltac:(lia)). lia. }
    assert (F1 : Forall (fun o => fst o < pp) os1).
    { destruct (Z.ltb_spec hi pp); [|injection E1 as _ <-; constructor]. apply rbind_ok in E1. destruct E1 as (amt & _ & E1).
      destruct (Z.leb_spec min_coin_amount amt); [|injection E1 as _ <-; constructor]. apply rbind_ok in E1. destruct E1 as (p' & _ & E1). injection E1 as _ <-.
      constructor; [|constructor]. cbn [fst]. lia. }
    rewrite (iter_until_stop _ _ _ (Some os1)) in H; [injection H as <-; assumption|]. unfold buy_step. destruct (Z.ltb_spec tick lo); [reflexivity|lia].
Qed.
Lemma pool_sell_side p lo hi prec os pp : 0 <= prec -> is_tick prec lo -> is_tick prec hi -> 0 <= p_rx p -> 0 <= p_ry p -> (forall x, pool_price p = Ok x -> 0 <= x) ->
  pool_sell_orders p lo hi prec = Some os -> (forall x, pool_price p = Ok x -> x = pp) -> Forall (fun o => pp < fst o) os.
Proof.
  intros Hp Tl Th Rx Ry Hpos H Hpp. pose proof (tick_pos _ _ Tl). pose proof (tick_pos _ _ Th).
  destruct (pool_price p) as [x| |] eqn:Epp; [|unfold pool_sell_orders in H; rewrite Epp in H; destruct (sell_start _ _ _ _) as [[?|]| |]; injection H as <-; constructor ..].
  pose proof (Hpos x eq_refl) as Hx. rewrite (Hpp x eq_refl) in Epp, Hx. clear Hpp Hpos x. destruct (Z_le_gt_dec lo hi) as [L|G].
  - destruct (pool_sell_orders_spec p lo hi prec pp Hp ltac:(lia) Tl Rx Ry Epp Hx) as [S _]. destruct (S os H) as (_ & F & _). eapply Forall_impl; [|exact F]. intros o (_ & _ & X & _). exact X.
  - unfold pool_sell_orders in H. rewrite Epp in H. destruct (sell_start p lo hi prec) as [[s|]| |] eqn:ES; try (injection H as <-; constructor).
    unfold sell_start in ES. rewrite Epp in ES. cbn [rbind] in ES. destruct (Z.leb_spec hi pp); [discriminate ES|].
    apply rbind_ok in ES. destruct ES as ([p1 os1] & E1 & ES). apply rbind_ok in ES. destruct ES as (pp1 & Epp1 & ES). apply rbind_ok in ES. destruct ES as (tick & Et & ES). injection ES as <-.
    assert (Ht : hi < tick).
    { unfold price_to_up_tick_chk in Et. destruct (Z.eqb_spec (Z.max lo pp1) 0) as [|N]; [discriminate Et|]. injection Et as <-. destruct (price_to_up_tick_spec (Z.max lo pp1) prec Hp ltac:(lia)) as (_ & D & _). lia. }
    assert (F1 : Forall (fun o => pp < fst o) os1).
    { destruct (Z.ltb_spec pp lo); [|injection E1 as _ <-; constructor]. apply rbind_ok in E1. destruct E1 as (amt & _ & E1).
      destruct (Z.leb_spec min_coin_amount amt); [|injection E1 as _ <-; constructor]. apply rbind_ok in E1. destruct E1 as (m & _ & E1).
      apply rbind_ok in E1. destruct E1 as (v & _ & E1). destruct (0 <? v); [|injection E1 as _ <-; constructor].
      apply rbind_ok in E1. destruct E1 as (p' & _ & E1). injection E1 as _ <-. constructor; [|constructor]. cbn [fst]. lia. }
    rewrite (iter_until_stop _ _ _ (Some os1)) in H; [injection H as <-; assumption|]. unfold sell_step. destruct (Z.ltb_spec hi tick); [reflexivity|lia].
Qed.

(** The orders of pools priced [pp] against users on their side of [pp]. *)
Definition sided (pp : dec) (o : order) : Prop := match o_dir o with Buy => o_price o < pp | Sell => pp < o_price o end.
Definition beside (pp : dec) (o : order) : Prop := match o_dir o with Buy => o_price o <= pp | Sell => pp <= o_price o end.
Definition priced (pp : dec) (ip : Z * pool) : Prop := sound_pool ip /\ forall x, pool_price (snd ip) = Ok x -> x = pp.

Lemma sided_apart pp hu po : Forall (beside pp) hu -> apart hu -> Forall (sided pp) po -> apart (hu ++ po).
Proof.
  intros B A S b v Hb Hv Db Dv. rewrite Forall_forall in B, S. rewrite in_app_iff in Hb, Hv.
  destruct Hb as [Hb|Hb], Hv as [Hv|Hv]; [exact (A b v Hb Hv Db Dv)| | |].
  - specialize (B b Hb). specialize (S v Hv). unfold beside in B. unfold sided in S. rewrite Db in B. rewrite Dv in S. lia.
  - specialize (S b Hb). specialize (B v Hv). unfold beside in B. unfold sided in S. rewrite Dv in B. rewrite Db in S. lia.
  - pose proof (S b Hb) as X. specialize (S v Hv). unfold sided in S, X. rewrite Db in X. rewrite Dv in S. lia.
Qed.
Lemma around_sided lo hi prec pp ps : 0 <= prec -> is_tick prec lo -> is_tick prec hi -> Forall (priced pp) ps -> forall os, orders_around lo hi prec ps = Some os -> Forall (sided pp) os.
Proof.
  intros Hp Tl Th HF. induction HF as [|[i p] ps [(S1 & S2 & S3) Hpp] HF IH]; intros os H; cbn [orders_around] in H; [injection H as <-; constructor|]. cbn [snd] in *.
  destruct (pool_buy_orders p lo hi prec) as [bs|] eqn:Eb; [|discriminate H]. destruct (pool_sell_orders p lo hi prec) as [ss|] eqn:Es; [|discriminate H].
  destruct (orders_around lo hi prec ps) as [r|] eqn:Er; [|discriminate H]. injection H as <-. rewrite !Forall_app. split; [|split; [|exact (IH r eq_refl)]].
  - apply Forall_map. eapply Forall_impl; [|exact (pool_buy_side p lo hi prec bs pp Hp Tl Th S1 S2 Eb Hpp)]. intros o Ho. exact Ho.
  - apply Forall_map. eapply Forall_impl; [|exact (pool_sell_side p lo hi prec ss pp Hp Tl Th S1 S2 S3 Es Hpp)]. intros o Ho. exact Ho.
Qed.
Lemma at_sided pp mp ps : 0 < mp -> Forall (priced pp) ps -> Forall (sided pp) (flat_map (orders_at mp) ps).
Proof.
  intros Hmp HF. induction HF as [|[i p] ps [(S1 & S2 & _) Hpp] HF IH]; [constructor|]. cbn [flat_map]. apply Forall_app. split; [|exact IH]. cbn [snd] in *. unfold orders_at. cbn [snd fst]. apply Forall_app. split.
  - destruct (buy_amount_over p mp) as [b| |] eqn:E; [|constructor|constructor]. cbn [ok_or0]. destruct (Z.ltb_spec 0 b) as [P|]; [|constructor]. constructor; [|constructor].
    destruct (buy_amount_over_spec p mp b S1 S2 Hmp E) as (_ & _ & X). destruct (X ltac:(lia)) as (y & Ey & L). rewrite (Hpp y Ey) in L. exact L.
  - destruct (sell_amount_under p mp) as [b| |] eqn:E; [|constructor|constructor]. cbn [ok_or0]. destruct (Z.ltb_spec 0 b) as [P|]; [|constructor]. constructor; [|constructor].
    destruct (sell_amount_under_spec p mp b S1 S2 Hmp E) as (_ & X). destruct (X ltac:(lia)) as (y & Ey & L). rewrite (Hpp y Ey) in L. exact L.
Qed.

Lemma kmatch_rests iter prm hu ps last h1 r pp : is_perm_iter iter -> 0 <= pm_tick_prec prm -> 0 <= pm_price_ratio prm < P18 -> Forall fresh_order hu -> (forall p, last = Some p -> 0 < p) ->
  Forall (priced pp) ps -> Forall (beside pp) hu -> apart hu -> kmatch iter prm hu ps last = Some (h1, r) -> r = None.
Proof.
  intros Hi Hp Hr Fh Hl Fp Bh Ah H. assert (Sp : Forall sound_pool ps) by (eapply Forall_impl; [|exact Fp]; intros ip X; apply X).
  destruct (kmatch_facts iter prm hu ps last h1 r Hp Hr Fh Sp Hl H) as (po & Eh & Fpo & Out & _).
  assert (F1 : Forall wf_order h1) by (rewrite Eh; apply Forall_app; split; [eapply Forall_impl; [|exact Fh]; exact fresh_wf|eapply Forall_impl; [|exact Fpo]; intros o Ho; apply fresh_wf; apply Ho]).
  unfold kmatch in H. cbn zeta in H. destruct last as [last|].
  - specialize (Hl last eq_refl). destruct (price_limits last (pm_price_ratio prm) (pm_tick_prec prm)) as [[lo hi]| |] eqn:El; [|discriminate H|discriminate H].
    cbn [of_res fst snd] in H. destruct (price_limits_spec _ _ _ _ _ Hp Hl Hr El) as (Tl & Th & _). destruct (orders_around lo hi (pm_tick_prec prm) ps) as [po'|] eqn:Ep; [|discriminate H].
    pose proof (sided_apart pp hu po' Bh Ah (around_sided lo hi _ pp ps Hp Tl Th Fp po' Ep)) as A.
    assert (E1 : hu ++ po' = h1) by (destruct (match_book _ _ _ _) as [[[[? ?] ?] ?]|]; [|discriminate H]; injection H as X _; exact X).
    rewrite E1 in H, A. rewrite (apart_book iter Hi h1 last F1 Hl A) in H. injection H as <-. reflexivity.
  - match type of H with (if ?e then None else _) = _ => destruct e eqn:Ec; [discriminate H|] end.
    destruct (find_match_price _ _) as [mp|] eqn:Ef; [|injection H as _ <-; reflexivity].
    assert (Hmp : 0 < mp).
    { eapply find_match_price_pos; [|exact Ef]. apply andb_false_iff in Ec. destruct Ec as [Ec|Ec]; [exfalso|lia].
      unfold find_match_price in Ef. destruct (ov_highest_buy _) as [hb|]; [|discriminate Ef]. destruct (ov_lowest_sell _) as [ls|]; [|discriminate Ef]. destruct (Z.ltb_spec hb ls); [discriminate Ef|]. lia. }
    pose proof (sided_apart pp hu _ Bh Ah (at_sided pp mp ps Hmp Fp)) as A.
    assert (E1 : hu ++ flat_map (orders_at mp) ps = h1) by (destruct (match_single _ _ _ _); [|discriminate H]; injection H as X _; exact X).
    rewrite E1 in H, A. rewrite (apart_single iter Hi h1 mp F1 Hmp A) in H. injection H as <-. reflexivity.
Qed.

(** ** One pair's matching *)
(** The live orders of pair [i] lie on their side of [pp], no two cross, and every active pool of the pair is priced [pp]. *)
Definition rests (s : state) (i : Z) (pr : pair) (pp : dec) : Prop :=
  (forall j o, get_order s i j = Some o -> live o = true -> match ko_dir o with Buy => ko_price o <= pp | Sell => pp <= ko_price o end) /\
  (forall j k b v, get_order s i j = Some b -> get_order s i k = Some v -> live b = true -> live v = true -> ko_dir b = Buy -> ko_dir v = Sell -> ko_price b < ko_price v) /\
  (forall n p ap x, get_pool s n = Some p -> pl_pair p = i -> pl_disabled p = false -> amm_pool p (reserve s n (pr_quote pr)) (reserve s n (pr_base pr)) (supply (st_bank s) (PoolCoin n)) = Ok ap -> pool_price ap = Ok x -> x = pp).

Lemma matching_rests (Q : ctl) iter pr s s' pp : is_perm_iter iter -> inv Q s -> (forall p, Q p -> sane_ratio p) -> stage_of Q = STrade -> get_pair s (pr_id pr) = Some pr -> plain_collectors (st_params s) ->
  execute_matching iter pr s = Some s' -> rests s (pr_id pr) pr pp ->
  get_pair s' (pr_id pr) = Some (mkPair (pr_id pr) (pr_base pr) (pr_quote pr) (pr_last_order pr) (pr_last_price pr) (pr_batch pr + 1)) /\
  (forall j o, get_order s (pr_id pr) j = Some o -> live o = true ->
     get_order s' (pr_id pr) j = Some (ko_with_status o (if (match ko_status o with ONotExecuted => false | _ => true end) && expired_at o (st_time s) then OExpired else match ko_status o with ONotExecuted => ONotMatched | st => st end))) /\
  (forall n d, reserve s' n d = reserve s n d).
Proof.
  intros Hi I HQ T Gp PC H (Hb & Hc & Hp). pose proof (v_str _ _ I) as S.
  destruct (execute_matching_full Q iter pr s s' Hi I HQ T Gp H) as (ss & price & hu & ps & MB & _ & _ & Epr & _ & _ & _ & _ & _ & _ & R).
  destruct (mb_collect _ _ _ _ _ MB) as (s1 & C1 & C2). destruct (i_pairs _ S _ _ Gp) as (_ & Rp & _ & _ & _ & Lp & _).
  assert (Fh : Forall fresh_order hu) by (eapply Forall_impl; [|exact (mb_entries _ _ _ _ _ MB)]; intros o Ho; apply Ho).
  destruct (v_params _ _ I) as [Vp Qp]. unfold valid_params in Vp. rewrite !andb_true_iff in Vp.
  assert (Hprec : 0 <= pm_tick_prec (st_params s)) by lia. assert (Hrat : 0 <= pm_price_ratio (st_params s) < P18) by (split; [lia|apply HQ; assumption]).
  assert (Nd : NoDup (map fst (mprefix (st_orders s) (pr_id pr)))) by (apply msorted_NoDup, msorted_filter, (i_orders_sorted _ S)).
  assert (Cur : forall k o, In (k, o) (mprefix (st_orders s) (pr_id pr)) -> mget (st_orders s) k = Some o /\ fst k = pr_id pr).
  { intros k o X. apply mprefix_In in X. destruct X as [X Y]. split; [apply snap_current; [apply (i_orders_sorted _ S)|assumption]|exact Y]. }
  destruct (collect_orders_spec Q _ _ (or_introl T) s [] s1 hu I Nd Cur (Forall_nil _) (NoDup_nil _) (fun _ _ _ Z => Z) C1) as (Mc & (_ & R0 & R1 & _) & _).
  destruct (collect_pools_spec Q pr _ (or_introl T) s1 ss ps (inv_mics _ _ _ Mc I) C2) as (_ & Sb & _ & _).
  assert (Bank : forall n, wst (-1) (Z.eqb n) False s1 /\ forall d, bal (st_bank s1) (PoolReserve n) d = bal (st_bank s) (PoolReserve n) d /\ supply (st_bank s1) (PoolCoin n) = supply (st_bank s) (PoolCoin n)).
  { intros n. pose proof (plain_wst (-1) (Z.eqb n) s S PC) as W. pose proof (w_users (-1) (Z.eqb n) False s (pr_id pr) S W) as U.
    pose proof (collect_orders_fr (-1) (Z.eqb n) (pr_id pr) _ ltac:(lia) U _ _ _ C1) as M1. pose proof (collect_orders_w (-1) (Z.eqb n) False _ _ U _ _ _ W C1) as W1. cbn [fst] in M1, W1.
    split; [exact W1|]. intros d. split; [exact (mkt_reserve n _ _ M1 d)|]. symmetry. apply (ag_sup _ _ _ _ (m_bank _ _ _ _ M1)). apply Z.eqb_refl. }
  (* the user orders *)
  assert (Usr : forall o, In o hu -> exists j ko, get_order s (pr_id pr) j = Some ko /\ live ko = true /\ ko_dir ko = o_dir o /\ ko_price ko = o_price o).
  { intros o Ho. destruct (collect_orders_from _ _ _ _ _ C1 o Ho) as [[]|(k & ko & X & L & Eu)]. apply mprefix_In in X. destruct X as [X Ek].
    pose proof (snap_current _ _ _ (i_orders_sorted _ S) X) as G. destruct (i_orders _ S _ _ G) as (_ & pr0 & _ & Ok).
    destruct (user_order_stands pr0 ko o Ok Eu) as (_ & D & P & _). exists (snd k), ko. split; [unfold get_order; rewrite <- Ek; destruct k; exact G|]. split; [exact L|]. split; congruence. }
  assert (Bh : Forall (beside pp) hu).
  { apply Forall_forall. intros o Ho. destruct (Usr o Ho) as (j & ko & G & L & D & P). specialize (Hb j ko G L). unfold beside. rewrite <- D, <- P. exact Hb. }
  assert (Ah : apart hu).
  { intros b v Ib Iv Db Dv. destruct (Usr b Ib) as (j & kb & Gb & Lb & D1 & <-). destruct (Usr v Iv) as (k & kv & Gv & Lv & D2 & <-). apply (Hc j k kb kv Gb Gv Lb Lv); congruence. }
  assert (Fp : Forall (priced pp) ps).
  { apply Forall_forall. intros [n ap] Hin. split; [exact (proj1 (Forall_forall _ _) (mb_sound _ _ _ _ _ MB) _ Hin)|]. cbn [snd]. intros x Ex. destruct (Bank n) as [W1 B1].
    destruct (collect_own n pr ap _ s1 ss ps W1 C2 Hin) as (p & G1 & D & Ap & _). assert (G : get_pool s n = Some p) by (unfold get_pool in *; rewrite R0 in G1; exact G1).
    assert (En : pl_id p = n) by (destruct (i_pools _ S _ _ G) as (X & _); injection X as ->; reflexivity).
    assert (Pi : pl_pair p = pr_id pr).
    { assert (Nid : forall m, In m (map fst ps) -> In (pr_id pr, m, tt) (st_plidx s)).
      { rewrite R1 in C2. intros m Hm. clear -C2 Hm W1.
        assert (X : forall l : list (key * unit), Forall (fun kv : key * unit => fst (fst kv) = pr_id pr) l -> forall s1 ss ps, wst (-1) (Z.eqb n) False s1 -> collect_pools l pr s1 = Some (ss, ps) -> In m (map fst ps) -> In (pr_id pr, m, tt) l).
        { clear s1 ss ps C2 Hm W1. induction l as [|[k u] l IH]; intros F s1 ss ps W H Hm; cbn [collect_pools] in H; [injection H as <- <-; destruct Hm|]. inversion F as [|? ? Fk Fl]; subst. cbn [fst] in Fk.
          destruct (get_pool s1 (snd k)) as [p|] eqn:G; [|discriminate H]. destruct (w_pool _ _ _ _ W _ _ G) as [Ep _]. destruct (pl_disabled p); [right; exact (IH Fl _ _ _ W H Hm)|].
          destruct (amm_pool p _ _ _) as [a| |]; [|discriminate H|discriminate H]. cbn [of_res] in H. destruct (is_depleted a).
          - right. refine (IH Fl _ _ _ _ H Hm). apply mark_w; [exact W|rewrite Ep; exact G].
          - destruct (collect_pools l pr s1) as [[s2 ps2]|] eqn:E2; [|discriminate H]. injection H as <- <-. cbn [map fst snd] in Hm. destruct Hm as [Em|Hm]; [left|right; exact (IH Fl _ _ _ W E2 Hm)].
            destruct u. rewrite <- Em, Ep, <- Fk. destruct k; reflexivity. }
        assert (Y : In (pr_id pr, m, tt) (mprefix (st_plidx s) (pr_id pr))).
        { refine (X _ _ s1 ss ps W1 C2 Hm). apply Forall_forall. intros kv Z. apply mprefix_In in Z. apply Z. }
        apply mprefix_In in Y. apply Y. }
      specialize (Nid n (in_map fst _ _ Hin)). apply (mget_iff _ _ _ (i_plidx_sorted _ S)) in Nid. destruct (i_plidx _ S _ _ Nid) as (q & Gq & Eq). rewrite G in Gq. injection Gq as <-. exact Eq. }
    apply (Hp n p ap x G Pi D); [|exact Ex]. unfold reserve. unfold pool_rx, pool_ry, pool_ps in Ap. rewrite En in Ap. rewrite !(proj1 (B1 _)), (proj2 (B1 (pr_quote pr))) in Ap. exact Ap. }
  destruct R as [(-> & _ & _ & Eo & Eb)|(po & h & h2 & mp & qd & Ek & _)].
  2:{ exfalso. pose proof (kmatch_rests iter _ hu ps _ _ _ pp Hi Hprec Hrat Fh Lp Fp Bh Ah Ek) as X. discriminate X. }
  split; [unfold get_pair; rewrite Epr, mget_mset_eq; reflexivity|]. split.
  - intros j o G L. pose proof (mb_offered _ _ _ _ _ MB _ _ G eq_refl L) as Off. unfold get_order. rewrite Eo. destruct (_ && _); [exact Off|exact (proj1 Off)].
  - intros n d. unfold reserve. rewrite Eb, Sb. exact (proj1 (proj2 (Bank n) d)).
Qed.

(** ** The batch *)
Lemma batch_rests (Q : params -> Prop) iter s s' i pr pp : (forall x, Q x -> plain_collectors x) -> is_perm_iter iter -> reach (sane Q) (InBlock, s) -> st_height s mod pm_batch_size (st_params s) = 0 -> end_block iter s = Some s' ->
  get_pair s i = Some pr -> rests s i pr pp ->
  (exists pr', get_pair s' i = Some pr' /\ pr_last_price pr' = pr_last_price pr) /\
  (forall j o, get_order s i j = Some o -> live o = true -> exists o', get_order s' i j = Some o' /\
     (must_end (st_time s) o /\ o' = ko_with_status o OExpired \/ ~ must_end (st_time s) o /\ o' = ko_with_status o (match ko_status o with ONotExecuted => ONotMatched | st => st end))) /\
  (forall n p, get_pool s n = Some p -> pl_pair p = i -> (forall j r, mget (st_deps s) (n, j) = Some r -> dr_status r <> RNotExecuted) -> (forall j r, mget (st_wds s) (n, j) = Some r -> wr_status r <> RNotExecuted) ->
     forall d, reserve s' n d = reserve s n d).
Proof.
  intros HC Hi R HB HE Gp (Hb & Hc & Hp). pose proof (proj1 (okp_st (sane Q) STrade s) (reach_okp Q _ R)) as I.
  assert (HA : forall x, sane Q x -> sane_ratio x /\ plain_collectors x) by (intros x [X Y]; split; [exact Y|exact (HC x X)]).
  destruct (batch_time Q iter Hi s s' R HB HE) as (_ & sm & s2 & E1 & E2 & O2 & Mm & Im & Tm).
  pose proof (batch_requests iter s s' HB HE) as H. unfold execute_requests in H. rewrite E1, E2 in H.
  destruct (for_each _ (st_deps s2) s2) as [s3|] eqn:E3; [|discriminate H].
  pose proof (v_str _ _ I) as S. assert (PC : plain_collectors (st_params s)) by (apply HA; apply (v_params _ _ I)). assert (HQ : forall x, sane Q x -> sane_ratio x) by (intros x X; apply HA; exact X).
  assert (Epr : pr_id pr = i) by exact (get_pair_id _ _ _ S Gp).
  assert (W : wst i (pool_in s i) True s).
  { apply wst_str; [exact S| |]. - intros _ m q G. unfold pool_in. rewrite G. apply Z.eqb_eq. - intros [E|(m & E & _)]; [exact (proj1 (proj1 PC) _ E)|exact (proj2 (proj1 PC) _ E)]. }
  assert (One : one i (pool_in s i) True (mkCtl (sane Q) STrade) st_pairs (execute_matching iter) (fun k => fst k =? i)).
  { intros k v x x' Ix Wx G E. pose proof (pairs_key _ _ _ _ Ix G) as ->.
    destruct (execute_matching_spec _ iter v x x' Hi Ix HQ eq_refl G E) as (ss & price & hu & ps & _ & _ & Mi & Pr & _). split; [exact Mi|]. split; [intros k' Nk; rewrite Pr; apply mget_mset_neq; assumption|].
    split; [exact (matching_w i (pool_in s i) True iter v x x' (v_str _ _ Ix) Wx E)|]. cbn [fst]. intros Ne. apply Z.eqb_neq in Ne. exact (matching_fr i (pool_in s i) True _ iter v x x' Logic.I Hi Ix HQ eq_refl G Wx Ne E). }
  pose proof (i_pairs_sorted _ S) as Sp.
  assert (Rd : ready i (pool_in s i) True (mkCtl (sane Q) STrade) st_pairs (st_pairs s) s) by (split; [exact I|split; [exact W|split; [apply msorted_NoDup; exact Sp|intros k v; apply snap_current; exact Sp]]]).
  assert (Fl : filter (fun kv : key * pair => fst (fst kv) =? i) (st_pairs s) = [((i, 0), pr)]).
  { apply msorted_ext; [apply msorted_filter; exact Sp|constructor; constructor|]. intros [a b]. rewrite mget_filter by (apply msorted_NoDup; exact Sp). cbn [fst mget]. destruct (key_eqb_spec (a, b) (i, 0)) as [E|N].
    - injection E as -> ->. unfold get_pair in Gp. rewrite Gp, Z.eqb_refl. reflexivity.
    - destruct (mget (st_pairs s) (a, b)) as [v|] eqn:G; [|reflexivity]. pose proof (pairs_key _ _ _ _ I G) as Ek. injection Ek as Ea Eb. destruct (Z.eqb_spec a i) as [->|]; [|reflexivity]. exfalso. apply N. congruence. }
  destruct (stage_skip i (pool_in s i) True _ _ _ _ _ _ _ _ One Fl _ _ Rd E1) as (r & a & b & M1 & _ & Ia & Wa & Ga & Ea & Rb & Fr & Er).
  pose proof (stage_frame i (pool_in s i) True _ _ _ _ r One Fr _ _ Rb Er) as M2.
  assert (Pa : st_params a = st_params s) by (symmetry; exact (m_params _ _ _ _ M1)). assert (Ta : st_time a = st_time s) by (symmetry; exact (m_time _ _ _ _ M1)).
  assert (Oa : forall j, get_order a i j = get_order s i j) by (intros j; symmetry; exact (m_orders _ _ _ _ M1 j)).
  assert (Res : forall n, pool_in s i n = true -> get_pool a n = get_pool s n /\ (forall d, reserve a n d = reserve s n d) /\ supply (st_bank a) (PoolCoin n) = supply (st_bank s) (PoolCoin n) /\ forall d, reserve sm n d = reserve b n d).
  { intros n Pn. assert (On : own i (pool_in s i) (PoolReserve n)) by (right; exists n; auto). split; [symmetry; exact (m_pools _ _ _ _ M1 n Pn)|].
    split; [intros d; symmetry; apply (ag_bal _ _ _ _ (m_bank _ _ _ _ M1)); exact On|]. split; [symmetry; apply (ag_sup _ _ _ _ (m_bank _ _ _ _ M1)); exact Pn|].
    intros d. symmetry. apply (ag_bal _ _ _ _ (m_bank _ _ _ _ M2)). exact On. }
  assert (Ra : rests a (pr_id pr) pr pp).
  { rewrite Epr. split; [|split].
    - intros j o. rewrite Oa. apply Hb.
    - intros j k x v. rewrite !Oa. apply Hc.
    - intros n p ap x G Pi D Ap Ex. pose proof (proj2 (proj2 (w_pool _ _ _ _ Wa _ _ G) Logic.I) Pi) as Pn. destruct (Res n Pn) as (Gn & Rn & Sn & _). rewrite Gn in G. rewrite !Rn, Sn in Ap. exact (Hp n p ap x G Pi D Ap Ex). }
  assert (Gpa : get_pair a (pr_id pr) = Some pr) by (rewrite Epr; exact Ga).
  destruct (matching_rests _ iter pr a b pp Hi Ia HQ eq_refl Gpa ltac:(rewrite Pa; exact PC) Ea Ra) as (Kp & Ko & Kr). rewrite Epr in Kp, Ko. rewrite Ta in Ko.
  split; [|split].
  - eexists. split; [|exact (eq_refl : pr_last_price (mkPair i (pr_base pr) (pr_quote pr) (pr_last_order pr) (pr_last_price pr) (pr_batch pr + 1)) = _)]. rewrite <- Kp. rewrite (m_pair _ _ _ _ M2). unfold get_pair. f_equal.
    pose proof (expire_stage (mkCtl (sane Q) SReq) sm s2 (or_intror eq_refl) Im E2) as X2. pose proof (inv_mics _ _ _ X2 Im) as I2.
    pose proof (dep_stage (mkCtl (sane Q) SReq) s2 s3 eq_refl I2 E3) as X3. pose proof (inv_mics _ _ _ X3 I2) as I3.
    pose proof (wd_stage (mkCtl (sane Q) SReq) s3 s' eq_refl I3 H) as X4. rewrite (req_pairs_mics _ _ _ X4 eq_refl), (req_pairs_mics _ _ _ X3 eq_refl). exact (req_pairs_mics _ _ _ X2 eq_refl).
  - intros j o G L. rewrite <- Oa in G. pose proof (Ko j o G L) as Gb. rewrite (m_orders _ _ _ _ M2 j : get_order b i j = get_order sm i j) in Gb.
    pose proof (i_orders_sorted _ (v_str _ _ Im)) as So.
    destruct (expire_loop (mkCtl (sane Q) SReq) (st_orders sm) (or_intror eq_refl) sm s2 Im (msorted_NoDup _ So)) as (X & _); [intros k v Y; apply snap_current; assumption|exact E2|].
    destruct (X _ _ (mget_In _ _ _ Gb)) as (o' & Go' & Ae). rewrite Tm in Ae. exists o'. split; [unfold get_order; rewrite O2; exact Go'|]. clear - Ae L. unfold after_expiry in Ae.
    destruct ((match ko_status o with ONotExecuted => false | _ => true end) && expired_at o (st_time s)) eqn:Ex.
    + left. apply andb_true_iff in Ex. destruct Ex as [_ Ex]. split; [left; unfold expired_at in Ex; lia|]. destruct Ae as [[-> _]|(X & _)]; [reflexivity|discriminate X].
    + destruct Ae as [[-> X]|(_ & X & ->)]; [right; split; [|reflexivity]|left; split; [exact X|reflexivity]]. apply X. unfold live in *. cbn. destruct (ko_status o); first [reflexivity|exact L].
  - intros n p G Pi Wd Ww d. assert (Pn : pool_in s i n = true) by (unfold pool_in; rewrite G; apply Z.eqb_eq; exact Pi). destruct (Res n Pn) as (_ & Rn & _ & Rm).
    destruct (trade_keeps_reqs (mkCtl (sane Q) STrade) s sm (match_stage (mkCtl (sane Q) STrade) iter s sm Hi I (batch_sane Q) eq_refl E1) eq_refl) as [Ed Ew].
    rewrite <- Ed in Wd. rewrite <- Ew in Ww. rewrite (rest_reserve (sane Q) HA n sm s2 s3 s' Im Wd Ww E2 E3 H d), Rm, Kr. apply Rn.
Qed.
