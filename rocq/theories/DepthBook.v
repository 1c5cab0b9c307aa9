From Verif Require Import Base Dec DecProofs TickModel TickSpec TickProofs OrderModel MatchModel MatchSpec KeyedProofs OrderProofs MatchProofs MatchLoopProofs MatchBookProofs MatchTop ViewProofs DepthModel DepthSpec DepthProofs.
From Coq Require Import Sorted Permutation.

Lemma acc_ticks_strict h ts : (forall t, In t ts -> 0 < total_matchable h (snd t) (fst t)) ->
  strict_sums (acc_ticks h 0 ts).
Proof.
  intros Hp.
  assert (E : lenZ (acc_ticks h 0 ts) = lenZ ts) by (unfold lenZ; rewrite acc_ticks_length; reflexivity).
  assert (P : forall l : list tick, (forall t, In t l -> 0 < total_matchable h (snd t) (fst t)) -> 0 <= tick_sum h l /\ (l <> [] -> 0 < tick_sum h l)).
  { unfold tick_sum. induction l as [|t l IH]; intros H; cbn [map]; [split; [reflexivity|congruence]|]. rewrite sumZ_cons.
    destruct IH as [A _]; [intros u Hu; apply H; right; assumption|]. pose proof (H t (or_introl eq_refl)). split; [lia|intros _; lia]. }
  split.
  - intros i j Hi Hj. rewrite E in Hj. rewrite !nth_acc_ticks by lia. cbn [snd].
    assert (X : firstn (S (Z.to_nat j)) ts = firstn (S (Z.to_nat i)) ts ++ firstn (S (Z.to_nat j) - S (Z.to_nat i)) (skipn (S (Z.to_nat i)) ts)).
    { rewrite <- (firstn_skipn (S (Z.to_nat i)) (firstn (S (Z.to_nat j)) ts)). rewrite firstn_firstn, Nat.min_l by lia. f_equal. apply firstn_skipn_comm_aux || (rewrite skipn_firstn_comm; reflexivity). }
    rewrite X, tick_sum_app. set (r := firstn (S (Z.to_nat j) - S (Z.to_nat i)) (skipn (S (Z.to_nat i)) ts)).
    assert (Hr : 0 < tick_sum h r); [|lia]. apply P.
    + intros t Ht. apply Hp. apply (In_firstn_In) in Ht || (unfold r in Ht; rewrite <- (firstn_skipn (S (Z.to_nat i)) ts); apply in_or_app; right; rewrite <- (firstn_skipn (S (Z.to_nat j) - S (Z.to_nat i)) (skipn (S (Z.to_nat i)) ts)); apply in_or_app; left; assumption).
    + intros Er. apply (f_equal (@length _)) in Er. unfold r in Er. rewrite firstn_length, skipn_length in Er. unfold lenZ in Hj. cbn [length] in Er. lia.
  - intros i Hi. rewrite E in Hi. rewrite nth_acc_ticks by assumption. cbn [snd]. apply P.
    + intros t Ht. apply Hp. rewrite <- (firstn_skipn (S (Z.to_nat i)) ts). apply in_or_app. left. assumption.
    + intros Er. apply (f_equal (@length _)) in Er. rewrite firstn_length in Er. unfold lenZ in Hi. cbn [length] in Er. lia.
Qed.
Lemma sorted_nth (R : Z -> Z -> Prop) (ts : list tick) : StronglySorted R (map fst ts) -> forall i j, (i < j < length ts)%nat -> R (fst (nth i ts (0, []))) (fst (nth j ts (0, []))).
Proof.
  induction ts as [|t ts IH]; intros Hs i j Hij; [cbn in Hij; lia|]. cbn [map] in Hs. apply StronglySorted_inv in Hs. destruct Hs as [Hs HF]. rewrite Forall_forall in HF.
  destruct j as [|j]; [lia|]. cbn [nth length] in *. destruct i as [|i]; [apply HF; apply in_map; apply nth_In; lia|apply IH; [assumption|lia]].
Qed.
Lemma acc_ticks_ok h inc ts : StronglySorted (tick_order inc) (map fst ts) -> (forall t, In t ts -> 0 < total_matchable h (snd t) (fst t)) ->
  sums_ok inc (acc_ticks h 0 ts).
Proof.
  intros Hs Hp. pose proof (acc_ticks_strict h ts Hp) as [A B].
  assert (E : lenZ (acc_ticks h 0 ts) = lenZ ts) by (unfold lenZ; rewrite acc_ticks_length; reflexivity).
  split; [|split].
  - intros i j Hi Hj. rewrite E in Hj. rewrite !nth_acc_ticks by lia. cbn [fst]. unfold lenZ in Hj.
    pose proof (sorted_nth _ ts Hs (Z.to_nat i) (Z.to_nat j) ltac:(lia)) as X. destruct inc; exact X.
  - intros i j Hi Hj. specialize (A i j Hi Hj). lia.
  - intros i Hi. specialize (B i Hi). lia.
Qed.

Section Book.
  Variable h : heap.
  Hypothesis Hwf : wf_heap h.
  Let v := make_view h (new_order_book h).

  Lemma book_sums : sums_ok false (v_buys v) /\ sums_ok true (v_sells v) /\ strict_sums (v_buys v) /\ strict_sums (v_sells v).
  Proof.
    destruct (new_order_book_ok h) as [KB KS]. unfold v, make_view. cbn [v_buys v_sells].
    pose proof (book_tick_positive h Buy false _ Hwf KB). pose proof (book_tick_positive h Sell true _ Hwf KS).
    split; [apply acc_ticks_ok; [apply buys_sorted; assumption|assumption]|]. split; [apply acc_ticks_ok; [apply sells_sorted; assumption|assumption]|].
    split; apply acc_ticks_strict; assumption.
  Qed.
  Lemma book_bought p : bought v p = resting_buys h p.
  Proof. rewrite <- bought_eq. unfold v. rewrite view_buy_over_depth by assumption. reflexivity. Qed.
  Lemma book_sold p : sold v p = resting_sells h p.
  Proof. rewrite <- sold_eq. unfold v. rewrite view_sell_under_depth by assumption. reflexivity. Qed.
  Lemma book_prices : (forall i, 0 <= i < lenZ (v_buys v) -> 0 < fst (nth_acc (v_buys v) i)) /\ (forall i, 0 <= i < lenZ (v_sells v) -> 0 < fst (nth_acc (v_sells v) i)).
  Proof.
    destruct (book_side_wf h Hwf) as [HB HS].
    split; intros i Hi; unfold v, make_view in *; cbn [v_buys v_sells] in *; unfold lenZ in Hi; rewrite acc_ticks_length in Hi;
    rewrite nth_acc_ticks by assumption; cbn [fst]; [apply (sw_pos _ _ _ _ HB)|apply (sw_pos _ _ _ _ HS)]; apply nth_In; lia.
  Qed.
  Lemma all_buys_resting : all_buys h = resting_buys h 0.
  Proof.
    unfold all_buys, resting_buys. apply sumZ_map_ext. intros o Ho. destruct (In_nth _ _ dummy_order Ho) as (i & Hi & E). specialize (Hwf i Hi). unfold get in Hwf. rewrite E in Hwf.
    destruct Hwf as (Hp & _). replace (0 <=? o_price o) with true by (symmetry; apply Z.leb_le; lia). rewrite andb_true_r. reflexivity.
  Qed.
  Lemma book_last_buys : 0 < lenZ (v_buys v) -> last_sum (v_buys v) = all_buys h.
  Proof.
    intros Hl. destruct book_sums as (HB & HS & TB & TS). destruct book_prices as [PB PS]. rewrite all_buys_resting, <- book_bought.
    destruct (cumul_cases false (v_buys v) 0 HB) as [[_ E]|(i & Hi & E & _ & A)].
    - specialize (E 0 ltac:(lia)). unfold past in E. apply Z.ltb_lt in E. specialize (PB 0 ltac:(lia)). lia.
    - fold (bought v 0) in E. rewrite E. unfold last_sum. destruct (Z.eq_dec i (lenZ (v_buys v) - 1)) as [->|]; [reflexivity|].
      specialize (A (i + 1) ltac:(lia)). unfold past in A. apply Z.ltb_lt in A. specialize (PB (i + 1) ltac:(lia)). lia.
  Qed.
  Lemma sells_bound : exists b, forall i, 0 <= i < lenZ (v_sells v) -> fst (nth_acc (v_sells v) i) <= b.
  Proof.
    destruct book_sums as (_ & (H & _) & _). exists (fst (nth_acc (v_sells v) (lenZ (v_sells v) - 1))). intros i Hi.
    destruct (Z.eq_dec i (lenZ (v_sells v) - 1)) as [->|]; [lia|]. specialize (H i (lenZ (v_sells v) - 1) ltac:(lia) ltac:(lia)). cbv iota in H. lia.
  Qed.
  Lemma all_sells_resting : exists b, forall p, b <= p -> all_sells h = resting_sells h p.
  Proof.
    exists (fold_right (fun o a => Z.max (o_price o) a) 0 h). intros p Hp. unfold all_sells, resting_sells. apply sumZ_map_ext. intros o Ho.
    assert (o_price o <= p).
    { apply Z.le_trans with (2 := Hp). clear - Ho. induction h as [|x l IH]; [destruct Ho|]. cbn [fold_right]. destruct Ho as [->|Ho]; [lia|]. specialize (IH Ho). lia. }
    replace (o_price o <=? p) with true by (symmetry; apply Z.leb_le; lia). rewrite andb_true_r. reflexivity.
  Qed.
  Lemma book_last_sells : 0 < lenZ (v_sells v) -> last_sum (v_sells v) = all_sells h.
  Proof.
    intros Hl. destruct book_sums as (HB & HS & TB & TS). destruct all_sells_resting as [b1 Hb1]. destruct sells_bound as [b2 Hb2].
    rewrite (Hb1 (Z.max b1 b2)) by lia. rewrite <- book_sold. set (p := Z.max b1 b2).
    destruct (cumul_cases true (v_sells v) p HS) as [[_ E]|(i & Hi & E & _ & A)].
    - specialize (E 0 ltac:(lia)). unfold past in E. apply Z.ltb_lt in E. specialize (Hb2 0 ltac:(lia)). lia.
    - fold (sold v p) in E. rewrite E. unfold last_sum. destruct (Z.eq_dec i (lenZ (v_sells v) - 1)) as [->|]; [reflexivity|].
      specialize (A (i + 1) ltac:(lia)). unfold past in A. apply Z.ltb_lt in A. specialize (Hb2 (i + 1) ltac:(lia)). lia.
  Qed.

  (** a side without entries has nothing *)
  Lemma book_no_buys : lenZ (v_buys v) = 0 -> all_buys h = 0.
  Proof.
    intros E. rewrite all_buys_resting, <- book_bought. destruct book_sums as (HB & _). destruct (cumul_cases false (v_buys v) 0 HB) as [[X _]|(i & Hi & _)]; [exact X|lia].
  Qed.
  Lemma book_no_sells : lenZ (v_sells v) = 0 -> all_sells h = 0.
  Proof.
    intros E. destruct all_sells_resting as [b Hb]. rewrite (Hb b) by lia. rewrite <- book_sold. destruct book_sums as (_ & HS & _). destruct (cumul_cases true (v_sells v) b HS) as [[X _]|(i & Hi & _)]; [exact X|lia].
  Qed.
  Lemma resting_le_all p : 0 <= resting_buys h p <= all_buys h /\ 0 <= resting_sells h p <= all_sells h.
  Proof.
    split.
    - rewrite all_buys_resting, <- !book_bought. destruct book_sums as (HB & HS & TB & TS).
      destruct (Z_le_gt_dec 0 p); [apply bought_mono; assumption|]. split; [apply (bought_mono v HB p p); lia|].
      destruct (cumul_cases false (v_buys v) p HB) as [[X _]|(i & Hi & X & _)]; fold (bought v p) in X; rewrite X; [apply (bought_mono v HB 0 0); lia|].
      destruct book_prices as [PB _]. rewrite <- (bought_at v HB i Hi). apply bought_mono; [assumption|]. specialize (PB i Hi). lia.
    - destruct all_sells_resting as [b Hb]. rewrite (Hb (Z.max b p)) by lia. rewrite <- !book_sold. destruct book_sums as (HB & HS & TB & TS). apply sold_mono; [assumption|lia].
  Qed.

  Let w := view_match v.
  (** what the query sees *)
  Lemma matched_book : exists m, exec_volume h m /\ sums_ok false (v_buys w) /\ sums_ok true (v_sells w) /\
    (forall i, 0 <= i < lenZ (v_buys w) -> 0 < fst (nth_acc (v_buys w) i)) /\ (forall i, 0 <= i < lenZ (v_sells w) -> 0 < fst (nth_acc (v_sells w) i)) /\
    (forall p, bought w p = shown_buys h m p) /\ (forall p, sold w p = shown_sells h m p).
  Proof.
    destruct book_sums as (HB & HS & TB & TS). destruct book_prices as [PB PS].
    destruct (match_spec v HB HS TB TS) as (m & M0 & (p0 & M1) & M2 & A & B & L1 & L2 & F1 & F2 & C). fold w in A, B, L1, L2, F1, F2, C. exists m.
    split; [split; [exists p0; rewrite <- book_bought, <- book_sold; exact M1|intros p; rewrite <- book_bought, <- book_sold; apply M2]|].
    split; [assumption|]. split; [assumption|]. rewrite L1, L2. split; [intros i Hi; rewrite F1 by assumption; apply PB; assumption|]. split; [intros i Hi; rewrite F2 by assumption; apply PS; assumption|].
    assert (G : (forall p, bought w p = if trades_completely h m then resting_buys h p else left_buys h m p) /\ (forall p, sold w p = if trades_completely h m then resting_sells h p else left_sells h m p)); [|exact G].
    unfold trades_completely, left_buys, left_sells. pose proof (lenZ_nonneg (v_buys v)) as N1. pose proof (lenZ_nonneg (v_sells v)) as N2.
    destruct (Z.ltb_spec 0 (lenZ (v_buys v))) as [Lb|Lb]; cbn [andb] in C.
    2:{ pose proof (book_no_buys ltac:(lia)) as Z1. assert (m = 0) by (specialize (resting_le_all p0); rewrite book_bought, book_sold in M1; lia). subst m.
      destruct C as [C1 C2]. split; intros p; [rewrite C1, book_bought|rewrite C2, book_sold]; pose proof (resting_le_all p); destruct (_ && _); lia. }
    destruct (Z.ltb_spec 0 (lenZ (v_sells v))) as [Ls|Ls]; cbn [andb] in C.
    2:{ pose proof (book_no_sells ltac:(lia)) as Z1. assert (m = 0) by (specialize (resting_le_all p0); rewrite book_bought, book_sold in M1; lia). subst m.
      destruct C as [C1 C2]. split; intros p; [rewrite C1, book_bought|rewrite C2, book_sold]; pose proof (resting_le_all p); destruct (_ && _); lia. }
    rewrite book_last_buys, book_last_sells in C by assumption. destruct ((m =? all_buys h) && (m =? all_sells h)); destruct C as [C1 C2];
    (split; intros p; [rewrite C1, book_bought|rewrite C2, book_sold]; reflexivity).
  Qed.
End Book.

Lemma fit_up price u : 0 < u -> 0 < price -> (fit_price price u false) mod u = 0 /\ price <= fit_price price u false < price + u.
Proof.
  intros Hu Hp. unfold fit_price. rewrite Z.quot_div_nonneg by lia. pose proof (Z.div_mod price u ltac:(lia)). pose proof (Z.mod_pos_bound price u Hu). cbn [negb andb].
  destruct (Z.eqb_spec (price / u * u) price) as [E|N]; cbn [negb].
  - split; [rewrite Z.mod_mul; lia|lia].
  - split; [replace (price / u * u + u) with ((price / u + 1) * u) by lia; rewrite Z.mod_mul; lia|lia].
Qed.
Lemma fit_down price u : 0 < u -> 0 < price -> (fit_price price u true) mod u = 0 /\ fit_price price u true <= price < fit_price price u true + u.
Proof.
  intros Hu Hp. unfold fit_price. rewrite Z.quot_div_nonneg by lia. pose proof (Z.div_mod price u ltac:(lia)). pose proof (Z.mod_pos_bound price u Hu). cbn [negb andb].
  split; [rewrite Z.mod_mul; lia|lia].
Qed.
Lemma tick_gap_pos p prec : 1 <= tick_gap p prec.
Proof. unfold tick_gap, pow10. destruct (Z.leb_spec (char (price_to_down_tick p prec) - prec) 0); [lia|]. pose proof (pow10_pos (char (price_to_down_tick p prec) - prec)). lia. Qed.
Lemma neg_mod k u : 0 < u -> k mod u = 0 -> (- k) mod u = 0.
Proof. intros Hu H. apply Z.mod_divide in H; [|lia]. destruct H as [a ->]. replace (- (a * u)) with ((- a) * u) by lia. apply Z.mod_mul. lia. Qed.

Section Query.
  Variables (w : view) (cb cs : Z -> Z).
  Hypothesis (HB : sums_ok false (v_buys w)) (HS : sums_ok true (v_sells w)).
  Hypothesis (PB : forall i, 0 <= i < lenZ (v_buys w) -> 0 < fst (nth_acc (v_buys w) i)) (PS : forall i, 0 <= i < lenZ (v_sells w) -> 0 < fst (nth_acc (v_sells w) i)).
  Hypothesis (EB : forall p, bought w p = cb p) (ES : forall p, sold w p = cs p).

  Lemma lowest_sell_spec : match view_lowest_sell w with Some x => 0 < x /\ 0 < lenZ (v_sells w) /\ best_sell cs x | None => forall p, cs p = 0 end.
  Proof.
    unfold view_lowest_sell, best_sell. pose proof (first_positive_spec true _ HS) as F. pose proof (fun p => first_positive_cumul true (v_sells w) p HS) as G.
    destruct (first_positive (v_sells w)) as [x|].
    - destruct F as (i & Hi & E & _). split; [rewrite E; apply PS; assumption|]. split; [lia|]. intros p. rewrite <- ES. unfold sold. rewrite G. unfold past. split.
      + intros (y & Ey & Y). injection Ey as <-. apply Z.ltb_ge. assumption.
      + intros L. exists x. split; [reflexivity|apply Z.ltb_ge; assumption].
    - intros p. rewrite <- ES. pose proof (sold_mono w HS p p ltac:(lia)). destruct (Z.eq_dec (sold w p) 0); [assumption|]. exfalso.
      destruct (proj1 (G p)) as (x & Ex & _); [fold (sold w p); lia|discriminate Ex].
  Qed.
  Lemma highest_buy_spec : match view_highest_buy w with Some x => 0 < x /\ 0 < lenZ (v_buys w) /\ best_buy cb x | None => forall p, cb p = 0 end.
  Proof.
    unfold view_highest_buy, best_buy. pose proof (first_positive_spec false _ HB) as F. pose proof (fun p => first_positive_cumul false (v_buys w) p HB) as G.
    destruct (first_positive (v_buys w)) as [x|].
    - destruct F as (i & Hi & E & _). split; [rewrite E; apply PB; assumption|]. split; [lia|]. intros p. rewrite <- EB. unfold bought. rewrite G. unfold past. split.
      + intros (y & Ey & Y). injection Ey as <-. apply Z.ltb_ge. assumption.
      + intros L. exists x. split; [reflexivity|apply Z.ltb_ge; assumption].
    - intros p. rewrite <- EB. pose proof (bought_mono w HB p p ltac:(lia)). destruct (Z.eq_dec (bought w p) 0); [assumption|]. exfalso.
      destruct (proj1 (G p)) as (x & Ex & _); [fold (bought w p); lia|discriminate Ex].
  Qed.

  Lemma unit_rows_ext c1 c2 limit u n rows : (forall k, c1 k = c2 k) -> unit_rows c1 limit u n rows -> unit_rows c2 limit u n rows.
  Proof.
    intros E [A B C D]. split; [assumption| |assumption|].
    - intros k a X. rewrite <- !E. apply B. assumption.
    - intros k. rewrite <- !E. apply D.
  Qed.
  Lemma empty_rows c limit u n : (forall k, c k = 0) -> unit_rows c limit u n [].
  Proof.
    intros E. split; [cbn [length]; lia|intros k a []|intros i j k a l b _ X; destruct i; discriminate X|]. intros k _ _. rewrite !E. lia.
  Qed.

  Lemma display_spec fuel lo hi small c d : 1 <= small -> make_display fuel w lo hi small c = Some d ->
    ds_unit d = small * 10 ^ Z.max 0 (cf_power c) /\
    unit_rows cs hi (ds_unit d) (cf_rows c) (rev (ds_sells d)) /\
    unit_rows (fun k => cb (- k)) (- Z.max lo 0) (ds_unit d) (cf_rows c) (map (fun r => (- fst r, snd r)) (ds_buys d)).
  Proof.
    intros Hs. unfold make_display. set (u := small * 10 ^ Z.max 0 (cf_power c)). assert (Hu : 0 < u) by (unfold u; pose proof (pow10_pos (Z.max 0 (cf_power c))); nia).
    pose proof lowest_sell_spec as LS. pose proof highest_buy_spec as HBS.
    set (sells := match view_lowest_sell w with Some ls => option_map (@rev _) (sell_rows fuel w hi u (cf_rows c) (fit_price ls u false) 0) | None => Some [] end).
    set (buys := match view_highest_buy w with Some hb => buy_rows fuel w lo u (cf_rows c) (fit_price hb u true) 0 | None => Some [] end).
    destruct sells as [s|] eqn:Es; [|intros X; discriminate X]. destruct buys as [b|] eqn:Eb; [|intros X; discriminate X]. intros X. injection X as <-. cbn [ds_unit ds_sells ds_buys].
    split; [reflexivity|]. split.
    - unfold sells in Es. destruct (view_lowest_sell w) as [ls|].
      + destruct (sell_rows fuel w hi u (cf_rows c) (fit_price ls u false) 0) as [r|] eqn:Er; [|discriminate Es]. cbn [option_map] in Es. injection Es as <-. rewrite rev_involutive.
        rewrite sell_rows_loop in Er. destruct LS as (Lp & Ln & Lb). destruct (fit_up ls u Hu Lp) as [F1 F2].
        apply (unit_rows_ext (fun k => view_sell_under w k true)); [intros k; rewrite sold_eq; apply ES|].
        apply (rows_unit (fun k => view_sell_under w k true) (fun k => 0 <? view_sell_over w k false) (last_sum (v_sells w)) hi u Hu) with (fuel := fuel) (cur := fit_price ls u false).
        * intros p q L. rewrite !sold_eq. apply sold_mono; assumption.
        * intros p. rewrite sold_eq. apply cumul_total; assumption.
        * intros p. rewrite sold_over. reflexivity.
        * assumption.
        * intros p. rewrite sold_eq. apply (sold_mono w HS p p). lia.
        * rewrite sold_eq, ES. pose proof (sold_mono w HS (fit_price ls u false - u) (fit_price ls u false - u) ltac:(lia)) as N. rewrite ES in N.
          destruct (Z.eq_dec (cs (fit_price ls u false - u)) 0); [assumption|]. pose proof (proj1 (Lb (fit_price ls u false - u))). lia.
        * assumption.
      + injection Es as <-. apply empty_rows. assumption.
    - unfold buys in Eb. destruct (view_highest_buy w) as [hb|].
      + pose proof (buy_rows_loop fuel w lo u (cf_rows c) (fit_price hb u true) 0) as Er. rewrite Eb in Er. cbn [option_map] in Er. symmetry in Er.
        destruct HBS as (Lp & Ln & Lb). destruct (fit_down hb u Hu Lp) as [F1 F2]. change (map (fun r => (- fst r, snd r)) b) with (map neg_row b).
        apply (unit_rows_ext (fun k => view_buy_over w (- k) true)); [intros k; rewrite bought_eq; apply EB|].
        apply (rows_unit (fun k => view_buy_over w (- k) true) (fun k => 0 <? view_buy_under w (- k) false) (last_sum (v_buys w)) (- Z.max lo 0) u Hu) with (fuel := fuel) (cur := - fit_price hb u true).
        * intros p q L. rewrite !bought_eq. apply bought_mono; [assumption|lia].
        * intros p. rewrite bought_eq. apply cumul_total; assumption.
        * intros p. rewrite bought_under. reflexivity.
        * apply neg_mod; assumption.
        * intros p. rewrite bought_eq. apply (bought_mono w HB (- p) (- p)). lia.
        * rewrite bought_eq, EB. pose proof (bought_mono w HB (- (- fit_price hb u true - u)) (- (- fit_price hb u true - u)) ltac:(lia)) as N. rewrite EB in N.
          destruct (Z.eq_dec (cb (- (- fit_price hb u true - u))) 0); [assumption|]. pose proof (proj1 (Lb (- (- fit_price hb u true - u)))). lia.
        * assumption.
      + injection Eb as <-. cbn [map]. apply empty_rows. auto.
  Qed.

  Lemma displays_spec fuel lo hi small cfs l : make_displays fuel w lo hi small cfs = Some l ->
    Forall2 (fun c d => make_display fuel w lo hi small c = Some d) cfs l.
  Proof.
    revert l. induction cfs as [|c cfs IH]; intros l; cbn [make_displays]; [intros E; injection E as <-; constructor|].
    destruct (make_display fuel w lo hi small c) as [d|] eqn:E; [|intros X; discriminate X]. destruct (make_displays fuel w lo hi small cfs) as [r|]; [|intros X; discriminate X].
    intros X. injection X as <-. constructor; auto.
  Qed.

  Lemma unit_loop_spec fuel hi prec : 0 <= prec -> forall n cur p, 0 < cur -> unit_loop fuel w hi prec n cur = Some p -> cur <= p.
  Proof.
    intros Hp. induction fuel as [|f IH]; intros n cur p Hc E; [discriminate E|]. cbn [unit_loop] in E.
    destruct ((0 <? n) && (cur <=? hi)); [|injection E as <-; lia]. cbv zeta in E. destruct ((if 0 <? _ then n - 1 else n) =? 0); [injection E as <-; lia|].
    destruct (_ <=? 0); [injection E as <-; lia|]. destruct (up_tick_spec cur prec Hp Hc) as (_ & U & _). apply IH in E; lia.
  Qed.
  Lemma unit_loop_stops fuel hi prec : 0 <= prec -> forall n cur, 0 < cur -> hi - cur < Z.of_nat fuel - 1 -> (0 < fuel)%nat -> exists p, unit_loop fuel w hi prec n cur = Some p.
  Proof.
    intros Hp. induction fuel as [|f IH]; intros n cur Hc Hf H0; [lia|]. cbn [unit_loop]. destruct (0 <? n); cbn [andb]; [|eauto].
    destruct (Z.leb_spec cur hi); [|eauto]. cbv zeta. destruct ((if 0 <? _ then n - 1 else n) =? 0); [eauto|]. destruct (_ <=? 0); [eauto|].
    destruct (up_tick_spec cur prec Hp Hc) as (_ & U & _). apply IH; [lia|lia|lia].
  Qed.

  Lemma display_stops fuel lo hi small c : 1 <= small -> hi < Z.of_nat fuel - 1 ->
    (forall x, view_highest_buy w = Some x -> x < Z.of_nat fuel - 1) -> (0 < fuel)%nat -> exists d, make_display fuel w lo hi small c = Some d.
  Proof.
    intros Hs Hh Hb Hf. unfold make_display. set (u := small * 10 ^ Z.max 0 (cf_power c)). assert (Hu : 1 <= u) by (unfold u; pose proof (pow10_pos (Z.max 0 (cf_power c))); nia).
    pose proof lowest_sell_spec as LS. pose proof highest_buy_spec as HBS.
    assert (A : exists s, match view_lowest_sell w with Some ls => option_map (@rev _) (sell_rows fuel w hi u (cf_rows c) (fit_price ls u false) 0) | None => Some [] end = Some s).
    { destruct (view_lowest_sell w) as [ls|]; [|eauto]. destruct LS as (Lp & _). destruct (fit_up ls u ltac:(lia) Lp) as [_ F]. rewrite sell_rows_loop.
      destruct (rows_loop_stops (fun k => view_sell_under w k true) (fun k => 0 <? view_sell_over w k false) hi u fuel (cf_rows c) (fit_price ls u false) 0) as [r ->]; [nia|assumption|]. cbn [option_map]. eauto. }
    assert (B : exists b, match view_highest_buy w with Some hb => buy_rows fuel w lo u (cf_rows c) (fit_price hb u true) 0 | None => Some [] end = Some b).
    { destruct (view_highest_buy w) as [hb|]; [|eauto]. destruct HBS as (Lp & _). destruct (fit_down hb u ltac:(lia) Lp) as [_ F]. specialize (Hb hb eq_refl).
      destruct (rows_loop_stops (fun k => view_buy_over w (- k) true) (fun k => 0 <? view_buy_under w (- k) false) (- Z.max lo 0) u fuel (cf_rows c) (- fit_price hb u true) 0) as [r E]; [nia|assumption|].
      rewrite <- buy_rows_loop in E. destruct (buy_rows fuel w lo u (cf_rows c) (fit_price hb u true) 0); [eauto|discriminate E]. }
    destruct A as [s ->], B as [b ->]. eauto.
  Qed.
  Lemma displays_stop fuel lo hi small cfs : 1 <= small -> hi < Z.of_nat fuel - 1 ->
    (forall x, view_highest_buy w = Some x -> x < Z.of_nat fuel - 1) -> (0 < fuel)%nat -> exists l, make_displays fuel w lo hi small cfs = Some l.
  Proof.
    intros Hs Hh Hb Hf. induction cfs as [|c cfs [l IH]]; cbn [make_displays]; [eauto|]. destruct (display_stops fuel lo hi small c Hs Hh Hb Hf) as [d ->]. rewrite IH. eauto.
  Qed.
End Query.

Lemma insert_config_perm c l : Permutation (c :: l) (insert_config c l).
Proof.
  induction l as [|d l IH]; cbn [insert_config]; [reflexivity|]. destruct (_ <=? _); [reflexivity|]. rewrite perm_swap. apply perm_skip. assumption.
Qed.
Lemma sort_configs_perm l : Permutation l (sort_configs l).
Proof. induction l as [|c l IH]; [reflexivity|]. cbn. rewrite <- insert_config_perm. apply perm_skip. assumption. Qed.
Lemma insert_config_sorted c l : StronglySorted (fun a b => cf_power a <= cf_power b) l -> StronglySorted (fun a b => cf_power a <= cf_power b) (insert_config c l).
Proof.
  induction l as [|d l IH]; intros Hs; cbn [insert_config]; [repeat constructor|]. apply StronglySorted_inv in Hs. destruct Hs as [Hs HF]. destruct (Z.leb_spec (cf_power c) (cf_power d)).
  - constructor; [constructor; assumption|]. constructor; [assumption|]. eapply Forall_impl; [|exact HF]. cbn. intros; lia.
  - constructor; [apply IH; assumption|]. rewrite Forall_forall in *. intros x Hx. apply (Permutation_in _ (Permutation_sym (insert_config_perm c l))) in Hx. destruct Hx as [<-|Hx]; [lia|auto].
Qed.
Lemma sort_configs_sorted l : StronglySorted (fun a b => cf_power a <= cf_power b) (sort_configs l).
Proof. induction l as [|c l IH]; cbn; [constructor|]. apply insert_config_sorted. assumption. Qed.
