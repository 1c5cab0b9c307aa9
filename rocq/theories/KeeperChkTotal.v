(** The checked batch completes whenever the unchecked one does and the batch is [roomy]. *)
From Coq Require Import Permutation.
From Verif Require Import Base Dec DecProofs TickModel TickSpec TickProofs OrderModel MatchModel MatchSpec OrderProofs MatchProofs MatchLoopProofs MatchTop ViewProofs PoolModel PoolProofs PoolOrderProofs
  KeeperModel KeeperLib KeeperSpec KeeperMicro KeeperInv KeeperBank KeeperOrders KeeperSettle KeeperReqs KeeperTrade InvariantProofs KeeperCover KeeperHalt KeeperHalt2 GenesisProofs MatchChk MatchChkProofs MatchChkTotal KeeperChk KeeperChkProofs OverflowSpec.

Lemma fresh_small P W h : Forall fresh_order h -> sumZ (map wt h) <= W -> small P W h.
Proof.
  intros F S. split; [|split; [exact S|]].
  - apply wf_heap_Forall. exact (Forall_impl _ fresh_wf F).
  - intros i Hi. assert (X : In (get h i) h) by (apply nth_In; exact Hi). rewrite Forall_forall in F. destruct (F _ X) as (_ & _ & E & _ & _ & R & _). rewrite E, R. lia.
Qed.
Lemma book_in_range h : book_inr h (new_order_book h).
Proof.
  destruct (new_book_contents h) as [(_ & N1 & B1 & _) (_ & N2 & B2 & _)]. split; (split; [assumption|]); intros p Hp; [apply B1 in Hp|apply B2 in Hp]; apply Hp.
Qed.
Lemma book_prices P h : (forall o, In o h -> 0 < o_price o <= P) -> (forall t, In t (buys (new_order_book h)) -> pok P (fst t)) /\ (forall t, In t (sells (new_order_book h)) -> pok P (fst t)).
Proof.
  intros H. destruct (new_book_contents h) as [(_ & _ & B1 & C1) (_ & _ & B2 & C2)].
  assert (A : forall d ps x, ps <> [] -> (forall p, In p ps <-> on_side h d p /\ o_price (get h p) = x) -> 0 < x <= P).
  { intros d [|p ps] x N C; [congruence|]. destruct (proj1 (C p) (or_introl eq_refl)) as [(Hi & _) <-]. apply H. apply nth_In. exact Hi. }
  split; intros [x ps] Ht; [destruct (C1 x ps Ht) as (N & _ & C)|destruct (C2 x ps Ht) as (N & _ & C)]; exact (A _ ps x N C).
Qed.

(** ** The book's view *)
Lemma depth_small P W keep h : small P W h -> 0 <= depth keep h <= W.
Proof.
  intros (Hw & S & _). pose proof (proj2 (wf_heap_Forall h) Hw) as F. rewrite Forall_forall in F. split.
  - apply sumZ_map_nonneg. intros o Ho. destruct (keep o); [|lia]. apply matchable_le_open; [exact (F o Ho)|apply (F o Ho)].
  - refine (Z.le_trans _ _ _ _ S). apply sumZ_map_le. intros o Ho. destruct (F o Ho) as (P0 & O & A & _). unfold wt.
    destruct (keep o); [pose proof (matchable_le_open o (o_price o) (F o Ho) P0); lia|lia].
Qed.

Section Find.
  Variables P W : Z.
  Hypothesis HW : 0 <= W < 2 ^ 195.
  Hypothesis HPW : P * W < 2 ^ 314.
  Variable h : heap.
  Hypothesis Hs : small P W h.
  Let v := make_view h (new_order_book h).
  Let ovc := multi_c [oc_of_view v].
  Let ov := multi_view [ov_of_view v].

  Lemma one_buy p : oc_buy_over ovc p = Some (ov_buy_over ov p true).
  Proof.
    unfold ovc, ov, multi_c, multi_view. cbn [oc_buy_over ov_buy_over map add_c fold_left oc_of_view ov_of_view]. unfold i_add. rewrite fits_int; [reflexivity|].
    unfold v. rewrite (view_buy_over_depth h (proj1 Hs) p true). pose proof (depth_small P W (buy_ge p) h Hs) as D. rewrite Z.add_0_l, Z.abs_eq by lia. apply Z.le_lt_trans with (1 := proj2 D). apply Z.lt_trans with (1 := proj2 HW). reflexivity.
  Qed.
  Lemma one_sell p : oc_sell_under ovc p = Some (ov_sell_under ov p true).
  Proof.
    unfold ovc, ov, multi_c, multi_view. cbn [oc_sell_under ov_sell_under map add_c fold_left oc_of_view ov_of_view]. unfold i_add. rewrite fits_int; [reflexivity|].
    unfold v. rewrite (view_sell_under_depth h (proj1 Hs) p true). pose proof (depth_small P W (sell_le p) h Hs) as D. rewrite Z.add_0_l, Z.abs_eq by lia. apply Z.le_lt_trans with (1 := proj2 D). apply Z.lt_trans with (1 := proj2 HW). reflexivity.
  Qed.
  Lemma one_best : oc_highest_buy ovc = Some (ov_highest_buy ov) /\ oc_lowest_sell ovc = Some (ov_lowest_sell ov).
  Proof. split; reflexivity. Qed.
  Lemma one_best_view : ov_highest_buy ov = view_highest_buy v /\ ov_lowest_sell ov = view_lowest_sell v.
  Proof. unfold ov, multi_view. cbn [ov_highest_buy ov_lowest_sell fold_left ov_of_view opt_better]. destruct (view_highest_buy v), (view_lowest_sell v); split; reflexivity. Qed.

  Lemma search_total fc f : (forall i, fc i = Some (f i)) -> forall fuel i j, search_loop_c fuel fc i j = Some (search_loop fuel f i j).
  Proof.
    intros Hf. induction fuel as [|k IH]; intros i j; cbn [search_loop_c search_loop]; [reflexivity|]. destruct (i <? j); [|reflexivity]. cbv zeta. rewrite Hf. destruct (f _); apply IH.
  Qed.
  Lemma first_total fc f a b : (forall i, fc i = Some (f i)) -> find_first_true_c a b fc = Some (find_first_true a b f).
  Proof.
    intros Hf. unfold find_first_true_c, find_first_true, go_search_c, go_search. destruct (a <? b).
    - rewrite (search_total _ (fun i => f (a + i))) by (intros i; apply Hf). reflexivity.
    - rewrite (search_total _ (fun i => f (a - i))) by (intros i; apply Hf). reflexivity.
  Qed.
  Lemma find_total prec : 0 <= prec <= 88 -> find_match_price_c ovc prec = Some (find_match_price ov prec).
  Proof.
    intros Hp. unfold find_match_price_c, find_match_price. destruct one_best as [-> ->].
    destruct (ov_highest_buy ov) as [hb|]; [|reflexivity]. destruct (ov_lowest_sell ov) as [ls|]; [|reflexivity]. destruct (hb <? ls); [reflexivity|]. cbv zeta.
    set (lo := tick_to_index (lowest_tick prec) prec). set (hi := tick_to_index (highest_tick prec) prec).
    erewrite (first_total _ (fun i => (0 <? ov_sell_under ov (tick_from_index i prec) true) && (ov_buy_over ov (tick_from_index (i + 1) prec) true <=? ov_sell_under ov (tick_from_index i prec) true)));
      [|intros i; rewrite one_sell; destruct (0 <? _); [rewrite one_buy; reflexivity|reflexivity]].
    erewrite (first_total _ (fun i => (0 <? ov_buy_over ov (tick_from_index i prec) true) && (ov_sell_under ov (tick_from_index (i - 1) prec) true <=? ov_buy_over ov (tick_from_index i prec) true)));
      [|intros i; rewrite one_buy; destruct (0 <? _); [rewrite one_sell; reflexivity|reflexivity]].
    destruct (find_first_true lo hi _) as [i|] eqn:Ei; [|reflexivity]. destruct (find_first_true hi lo _) as [j|] eqn:Ej; [|reflexivity].
    apply find_first_true_range in Ei. apply find_first_true_range in Ej. unfold lo in Ei, Ej. rewrite (tick_to_index_lowest prec ltac:(lia)) in Ei, Ej.
    pose proof (highest_is_tick prec ltac:(lia)) as Th. pose proof (lowest_lt_highest prec Hp) as Lh.
    destruct (tick_from_index_of_index prec (highest_tick prec) ltac:(lia) Th ltac:(lia)) as [Nh Eh]. fold hi in Nh, Eh.
    assert (B : forall k, 0 <= k <= hi -> 0 <= tick_from_index k prec <= highest_tick prec).
    { intros k Hk. destruct (tick_from_index_tick prec k ltac:(lia) ltac:(lia)) as [T _]. pose proof (tick_pos _ _ T). rewrite <- Eh. split; [lia|]. apply tick_from_index_mono1; lia. }
    pose proof (B i ltac:(lia)). pose proof (B j ltac:(lia)).
    assert (Hh : highest_tick prec < 2 ^ 300) by (destruct (price_to_down_tick_spec (2 ^ 300 - 1) prec ltac:(lia) eq_refl) as (_ & D & _); fold (highest_tick prec) in D; apply Z.le_lt_trans with (1 := D); reflexivity).
    unfold c_add. rewrite fits_dec; [reflexivity|]. rewrite Z.abs_eq by lia. apply Z.le_lt_trans with (2 ^ 300 + 2 ^ 300); [lia|reflexivity].
  Qed.
  (** The price found is at most a buyer's limit. *)
  Lemma find_le prec mp : 0 <= prec <= 88 -> (forall o, In o h -> is_tick prec (o_price o) /\ lowest_tick prec <= o_price o <= highest_tick prec) ->
    (forall o, In o h -> o_price o <= P) -> find_match_price ov prec = Some mp -> 0 < mp <= P.
  Proof.
    intros Hp Ht HP E. assert (F : Forall wf_order h) by (apply wf_heap_Forall, Hs).
    pose proof (multi_good_view [ov_of_view v] ltac:(constructor; [exact (book_good_view h F)|constructor])) as G. fold ov in G.
    destruct (view_best h (proj1 Hs)) as [BB BS]. fold v in BB, BS. destruct one_best_view as [E1 E2]. rewrite <- E1 in BB. rewrite <- E2 in BS.
    destruct (ov_highest_buy ov) as [hb|] eqn:Ehb; [|unfold find_match_price in E; rewrite Ehb in E; discriminate E].
    destruct (ov_lowest_sell ov) as [ls|] eqn:Els; [|unfold find_match_price in E; rewrite Ehb, Els in E; discriminate E].
    destruct BB as [(b & B1 & _ & _ & B4) _]. destruct BS as [(s & S1 & _ & _ & S4) _].
    destruct (Z_lt_le_dec hb ls) as [L|L].
    - rewrite find_match_price_none in E; [discriminate E|]. intros hb' ls' X Y. rewrite Ehb in X. rewrite Els in Y. injection X as <-. injection Y as <-. exact L.
    - destruct (Ht b B1) as [Tb Rb]. destruct (Ht s S1) as [Ts Rs]. rewrite B4 in Tb, Rb. rewrite S4 in Ts, Rs.
      destruct (find_match_price_balance ov prec ltac:(lia) (lowest_lt_highest prec Hp) G hb ls Ehb Els L ltac:(lia) ltac:(lia) Tb Ts) as (p & Ep & Tp & Hpb & _).
      rewrite E in Ep. injection Ep as <-. pose proof (tick_pos _ _ Tp). specialize (HP b B1). lia.
  Qed.
End Find.

(** ** Sizes of the pools' orders *)
Lemma pool_buys_size i lo hi prec p pp os : 0 <= prec -> 0 < lo <= hi -> is_tick prec hi -> 0 <= p_rx p -> 0 <= p_ry p -> pool_price p = Ok pp -> pool_buy_orders p lo hi prec = Some os ->
  exists a, 0 <= a /\ lo * a <= P18 * p_rx p /\ sumZ (map wt (map (pool_order i Buy) os)) <= a + p_rx p /\ Forall (fun o => o_price o <= hi) (map (pool_order i Buy) os).
Proof.
  intros Hp Hl Th Rx Ry Ep E. destruct (proj1 (pool_buy_orders_spec p lo hi prec pp Hp Hl Th Rx Ry Ep) os E) as (C & G & D).
  exists (sumZ (map snd os)). rewrite Forall_forall in G.
  assert (A0 : forall o, In o os -> 0 <= snd o /\ lo <= fst o <= hi) by (intros o Ho; destruct (G o Ho) as (_ & L & U & A & _); pose proof (desc_from_all os hi D o Ho); unfold min_coin_amount in A; lia).
  assert (S : lo * sumZ (map snd os) <= P18 * buy_cost os /\ 0 <= sumZ (map snd os)).
  { clear -A0 Hl. unfold buy_cost. induction os as [|o os IH]; [cbn; lia|]. cbn [map]. rewrite !sumZ_cons. specialize (IH (fun x Hx => A0 x (or_intror Hx))). destruct (A0 o (or_introl eq_refl)) as [B1 B2].
    assert (lo * snd o <= P18 * ceil_value (fst o) (snd o)); [|split; [rewrite !Z.mul_add_distr_l|]; lia].
    unfold ceil_value. pose proof (Z.mul_div_le (- (fst o * snd o)) P18 P18_pos). nia. }
  pose proof P18_pos. split; [lia|]. split; [nia|]. split.
  - rewrite map_map. replace (sumZ (map (fun x => wt (pool_order i Buy x)) os)) with (sumZ (map snd os) + buy_cost os); [lia|].
    unfold buy_cost, wt, pool_order, new_order. cbn [o_amt o_offer]. clear -A0 Hl. induction os as [|o os IH]; [reflexivity|]. cbn [map]. rewrite !sumZ_cons. rewrite <- IH by (intros x Hx; apply A0; right; exact Hx).
    destruct (A0 o (or_introl eq_refl)). rewrite buy_offer by lia. lia.
  - apply Forall_map, Forall_forall. intros o Ho. cbn. apply A0. exact Ho.
Qed.
Lemma pool_sells_size i lo hi prec p pp os : 0 <= prec -> 0 < lo <= hi -> is_tick prec lo -> 0 <= p_rx p -> 0 <= p_ry p -> pool_price p = Ok pp -> 0 <= pp -> pool_sell_orders p lo hi prec = Some os ->
  sumZ (map wt (map (pool_order i Sell) os)) <= 2 * p_ry p /\ Forall (fun o => o_price o <= hi) (map (pool_order i Sell) os).
Proof.
  intros Hp Hl Tl Rx Ry Ep P0 E. destruct (proj1 (pool_sell_orders_spec p lo hi prec pp Hp Hl Tl Rx Ry Ep P0) os E) as (C & G & D). rewrite Forall_forall in G. split.
  - rewrite map_map. replace (sumZ (map (fun x => wt (pool_order i Sell x)) os)) with (2 * sell_cost os); [lia|].
    unfold sell_cost, wt, pool_order, new_order. cbn [o_amt o_offer offer_coin_amount]. clear. induction os as [|o os IH]; [reflexivity|]. cbn [map]. rewrite !sumZ_cons. lia.
  - apply Forall_map, Forall_forall. intros o Ho. cbn. destruct (G o Ho) as (_ & U & _). lia.
Qed.
Lemma around_size lo hi prec : 0 <= prec -> 0 < lo <= hi -> is_tick prec lo -> is_tick prec hi -> forall ps po, Forall sound_pool ps -> orders_around lo hi prec ps = Some po ->
  exists a, 0 <= a /\ lo * a <= P18 * sumZ (map (fun ip => p_rx (snd ip)) ps) /\
    sumZ (map wt po) <= a + sumZ (map (fun ip => p_rx (snd ip)) ps) + 2 * sumZ (map (fun ip => p_ry (snd ip)) ps) /\ Forall (fun o => o_price o <= hi) po.
Proof.
  intros Hp Hl Tl Th. induction ps as [|[i p] ps IH]; intros po F E; cbn [orders_around] in E.
  - injection E as <-. exists 0. cbn. repeat split; try lia; constructor.
  - inversion F as [|? ? (Rx & Ry & Pp) F']; subst. cbn [snd] in Rx, Ry, Pp.
    destruct (pool_buy_orders p lo hi prec) as [bs|] eqn:Eb; [|discriminate E]. destruct (pool_sell_orders p lo hi prec) as [ss|] eqn:Es; [|discriminate E].
    destruct (orders_around lo hi prec ps) as [r|] eqn:Er; [|discriminate E]. injection E as <-. destruct (IH r F' eq_refl) as (a & A0 & A1 & A2 & A3).
    cbn [map snd]. rewrite !sumZ_cons. 
    destruct (pool_price p) as [pp| |] eqn:Epp.
    + destruct (pool_buys_size i lo hi prec p pp bs Hp Hl Th Rx Ry Epp Eb) as (b & B0 & B1 & B2 & B3).
      destruct (pool_sells_size i lo hi prec p pp ss Hp Hl Tl Rx Ry Epp (Pp pp eq_refl) Es) as (C1 & C2).
      exists (b + a). split; [lia|]. split; [rewrite !Z.mul_add_distr_l; lia|]. split; [rewrite !map_app, !sumZ_app; lia|]. apply Forall_app. split; [exact B3|]. apply Forall_app. split; assumption.
    + unfold pool_buy_orders in Eb. unfold pool_sell_orders in Es. rewrite Epp in Eb, Es. assert (bs = []) by (destruct (buy_start p lo hi prec) as [[?|]| |]; injection Eb; auto). assert (ss = []) by (destruct (sell_start p lo hi prec) as [[?|]| |]; injection Es; auto).
      subst bs ss. exists a. pose proof P18_pos. cbn [map app]. split; [lia|]. split; [nia|]. split; [lia|exact A3].
    + unfold pool_buy_orders in Eb. unfold pool_sell_orders in Es. rewrite Epp in Eb, Es. assert (bs = []) by (destruct (buy_start p lo hi prec) as [[?|]| |]; injection Eb; auto). assert (ss = []) by (destruct (sell_start p lo hi prec) as [[?|]| |]; injection Es; auto).
      subst bs ss. exists a. pose proof P18_pos. cbn [map app]. split; [lia|]. split; [nia|]. split; [lia|exact A3].
Qed.

(** ** Keeper.Match *)
Lemma kmatch_c_total iter prm h ps last P W : is_perm_iter iter -> 0 <= pm_tick_prec prm <= 88 -> 0 <= pm_price_ratio prm < P18 -> Forall fresh_order h -> Forall sound_pool ps ->
  0 <= W < 2 ^ 195 -> P * W < 2 ^ 314 -> (forall o, In o h -> o_price o <= P) ->
  match last with
  | Some l => 0 < l <= P /\ exists lo hi, price_limits l (pm_price_ratio prm) (pm_tick_prec prm) = Ok (lo, hi) /\ lo <= hi <= P /\
      sumZ (map wt h) + pools_load (sumZ (map (fun ip => p_rx (snd ip)) ps)) (sumZ (map (fun ip => p_ry (snd ip)) ps)) lo <= W
  | None => ps = [] /\ sumZ (map wt h) <= W /\ forall o, In o h -> is_tick (pm_tick_prec prm) (o_price o) /\ lowest_tick (pm_tick_prec prm) <= o_price o <= highest_tick (pm_tick_prec prm)
  end -> kmatch iter prm h ps last <> None -> kmatch_c iter prm h ps last <> None.
Proof.
  intros Hi [Hp Hp88] Hr Fh Fp HW HPW HP HL. unfold kmatch, kmatch_c. cbv zeta. destruct last as [l|].
  - destruct HL as (L & lo & hi & El & [Lh Hh] & Sz). rewrite El. cbn [of_res fst snd]. destruct (price_limits_spec _ _ _ _ _ Hp (proj1 L) Hr El) as (Tl & Th & _).
    pose proof (tick_pos _ _ Tl) as Lo. destruct (orders_around lo hi (pm_tick_prec prm) ps) as [po|] eqn:Ep; [|intros X; exact X].
    destruct (around_size lo hi _ Hp (conj Lo Lh) Tl Th ps po Fp Ep) as (a & A0 & A1 & A2 & A3).
    set (X := sumZ (map (fun ip => p_rx (snd ip)) ps)) in *. set (Y := sumZ (map (fun ip => p_ry (snd ip)) ps)) in *.
    assert (Ax : a <= X * P18 / lo) by (apply Z.div_le_lower_bound; lia). unfold pools_load in Sz.
    assert (Fpo : Forall fresh_order po) by (eapply Forall_impl; [|exact (orders_around_made lo hi _ ps Hp Tl Th Fp po Ep)]; intros o (F & _); exact F).
    assert (Sm : small P W (h ++ po)) by (apply fresh_small; [apply Forall_app; split; assumption|rewrite map_app, sumZ_app; lia]).
    assert (Pr : forall o, In o (h ++ po) -> 0 < o_price o <= P).
    { rewrite Forall_forall in Fh, Fpo, A3. intros o Ho. apply in_app_iff in Ho. destruct Ho as [Ho|Ho]; [destruct (Fh o Ho) as (B & _); specialize (HP o Ho); lia|destruct (Fpo o Ho) as (B & _); specialize (A3 o Ho); cbn beta in A3; lia]. }
    rewrite (new_book_total P W HW HPW (h ++ po) Sm) by (intros i Hj; apply Pr; apply nth_In; exact Hj).
    destruct (book_prices P (h ++ po) Pr) as [Pb Ps].
    intros N. assert (N' : match_book iter (h ++ po) (new_order_book (h ++ po)) l <> None) by (intros E; rewrite E in N; exact (N eq_refl)).
    pose proof (match_book_total P W HW HPW iter Hi (h ++ po) (new_order_book (h ++ po)) l Sm L (book_in_range _) Pb Ps N') as M.
    destruct (match_book_c iter (h ++ po) (new_order_book (h ++ po)) l) as [[[[h2 mp] qd] m]|]; [discriminate|congruence].
  - destruct HL as (-> & Sz & Tk). cbn [map flat_map orders_at_all_c].
    assert (Sm : small P W h) by (apply fresh_small; assumption).
    assert (Pr : forall o, In o h -> 0 < o_price o <= P) by (rewrite Forall_forall in Fh; intros o Ho; destruct (Fh o Ho) as (B & _); specialize (HP o Ho); lia).
    assert (Pi : forall i, (i < length h)%nat -> o_price (get h i) <= P) by (intros i Hj; apply Pr; apply nth_In; exact Hj).
    destruct (book_prices P h Pr) as [Pb Ps].
    rewrite (new_book_total P W HW HPW h Sm Pi), (make_view_total P W HW HPW h (new_order_book h) Sm (book_in_range h) Pb Ps).
    destruct (one_best h) as [-> ->]. destruct (_ && _); [intros X; exact X|].
    rewrite (find_total P W HW h Sm _ (conj Hp Hp88)).
    destruct (find_match_price (multi_view [ov_of_view (make_view h (new_order_book h))]) (pm_tick_prec prm)) as [mp|] eqn:Ef; [|discriminate].
    pose proof (find_le P W h Sm _ mp (conj Hp Hp88) Tk HP Ef) as Hm. rewrite app_nil_r.
    rewrite (new_book_total P W HW HPW h Sm Pi). intros N.
    assert (N' : find_matchable_single h (new_order_book h) mp <> None).
    { intros E. unfold match_single in N. rewrite E in N. exact (N eq_refl). }
    destruct (match_single_total P W HW HPW iter Hi h (new_order_book h) mp Sm Hm (book_in_range h) N') as (r & -> & _). destruct r as [[h2 qd]|]; discriminate.
Qed.

(** ** From the state to the batch *)
Lemma load_nonneg o : (exists pr, order_ok pr o) -> 0 <= order_load o.
Proof. intros (pr & _ & _ & _ & _ & _ & _ & _ & O & R & _). unfold order_load. destruct (live o); lia. Qed.
Lemma collect_orders_load l : (forall k o, In (k, o) l -> exists pr, order_ok pr o) -> forall s h s1 h1, collect_orders l s h = Some (s1, h1) ->
  exists hs, h1 = h ++ hs /\ sumZ (map wt hs) <= sumZ (map (fun kv => order_load (snd kv)) l) /\ forall uo, In uo hs -> exists k o, In (k, o) l /\ live o = true /\ o_price uo = ko_price o /\ fresh_order uo.
Proof.
  induction l as [|[k o] l IH]; intros Ok s h s1 h1 H; cbn [collect_orders] in H.
  - injection H as _ <-. exists []. rewrite app_nil_r. split; [reflexivity|]. split; [cbn; lia|intros uo []].
  - assert (Ok' : forall k o, In (k, o) l -> exists pr, order_ok pr o) by (intros k' o' X; exact (Ok k' o' (or_intror X))).
    pose proof (load_nonneg o (Ok k o (or_introl eq_refl))) as Ln. cbn [map snd]. rewrite sumZ_cons.
    assert (Sk : forall s', collect_orders l s' h = Some (s1, h1) -> exists hs, h1 = h ++ hs /\ sumZ (map wt hs) <= order_load o + sumZ (map (fun kv => order_load (snd kv)) l) /\ forall uo, In uo hs -> exists k' o', In (k', o') ((k, o) :: l) /\ live o' = true /\ o_price uo = ko_price o' /\ fresh_order uo).
    { intros s' H'. destruct (IH Ok' _ _ _ _ H') as (hs & E & Sz & Fr). exists hs. split; [exact E|]. split; [lia|]. intros uo Hu. destruct (Fr uo Hu) as (k' & o' & X & Y). exists k', o'. split; [right; exact X|exact Y]. }
    destruct (o_terminal (ko_status o)) eqn:Et; [exact (Sk _ H)|].
    destruct (match ko_status o with ONotExecuted => false | _ => expired_at o (st_time s) end).
    + destruct (finish_order s o OExpired) as [s2|]; [|discriminate H]. exact (Sk _ H).
    + destruct (user_order o) as [uo| |] eqn:Eu; try discriminate H. cbn [of_res] in H. destruct (IH Ok' _ _ _ _ H) as (hs & E & Sz & Fr).
      destruct (Ok k o (or_introl eq_refl)) as (pr & Oo). destruct (user_order_fresh pr o uo Oo Eu) as (Fu & _ & _ & Ro & Ra & Rp & _).
      assert (Lv : live o = true) by (unfold live; rewrite Et; reflexivity).
      exists (uo :: hs). split; [rewrite E, <- app_assoc; reflexivity|]. cbn [map]. rewrite sumZ_cons. split.
      * unfold order_load in *. rewrite Lv in *. unfold wt at 1. rewrite Ro. lia.
      * intros u [<-|Hu]; [exists k, o; split; [left; reflexivity|]; auto|]. destruct (Fr u Hu) as (k' & o' & X & Y). exists k', o'. split; [right; exact X|exact Y].
Qed.

Lemma sub_sum {A} (dec : forall x y : A, {x = y} + {x <> y}) (f : A -> Z) : (forall x, 0 <= f x) -> forall l m, NoDup l -> (forall x, In x l -> ~ In x m -> f x = 0) -> sumZ (map f l) <= sumZ (map f m).
Proof.
  intros Nn. induction l as [|a l IH]; intros m N H.
  - apply sumZ_nonneg. intros y Hy. apply in_map_iff in Hy. destruct Hy as (z & <- & _). apply Nn.
  - apply NoDup_cons_iff in N. destruct N as [N1 N2]. cbn [map]. rewrite sumZ_cons. destruct (in_dec dec a m) as [Ha|Ha].
    + apply in_split in Ha. destruct Ha as (m1 & m2 & ->).
      assert (X : sumZ (map f l) <= sumZ (map f (m1 ++ m2))).
      { apply IH; [exact N2|]. intros x Hx Hm. apply H; [right; exact Hx|]. intros Y. apply in_app_iff in Y. destruct Y as [Y|[Y|Y]]; [apply Hm, in_app_iff; auto|subst; contradiction|apply Hm, in_app_iff; auto]. }
      rewrite map_app, sumZ_app in *. cbn [map]. rewrite sumZ_cons. lia.
    + rewrite (H a (or_introl eq_refl) Ha). specialize (IH m N2 (fun x Hx => H x (or_intror Hx))). lia.
Qed.
Lemma reserves_le b (ids : list Z) d : bank_ok b -> NoDup ids -> sumZ (map (fun i => bal b (PoolReserve i) d) ids) <= supply b d.
Proof.
  intros [Nn (acc & Nd & Out & Sum)] N. rewrite Sum. rewrite <- (map_map PoolReserve (fun a => bal b a d)).
  apply (sub_sum addr_dec (fun a => bal b a d)); [intros a; apply Nn| |intros x _ Hx; apply Out; exact Hx].
  apply FinFun.Injective_map_NoDup; [|exact N]. intros x y E. injection E. auto.
Qed.
Lemma no_active_pools pr l : forall s s2 ps, (forall kv p, In kv l -> get_pool s (snd (fst kv)) = Some p -> pl_disabled p = true) -> collect_pools l pr s = Some (s2, ps) -> ps = [].
Proof.
  induction l as [|[k u] l IH]; intros s s2 ps D H; cbn [collect_pools] in H; [injection H as _ <-; reflexivity|].
  destruct (get_pool s (snd k)) as [p|] eqn:Ep; [|discriminate H]. rewrite (D (k, u) p (or_introl eq_refl) Ep) in H.
  apply (IH s s2 ps); [|exact H]. intros kv q X. apply D. right. exact X.
Qed.

Lemma execute_matching_c_total (Q : ctl) iter pr s : is_perm_iter iter -> inv Q s -> (forall p, Q p -> sane_ratio p) -> stage_of Q = STrade -> get_pair s (pr_id pr) = Some pr ->
  pm_tick_prec (st_params s) <= 88 -> roomy s pr -> execute_matching iter pr s <> None -> execute_matching_c iter pr s <> None.
Proof.
  intros Hi I HQ T Gp H88 (P & W & HW & HPW & HP & HL) N.
  cut (execute_matching_c iter pr s = execute_matching iter pr s); [intros ->; exact N|]. revert N. unfold execute_matching, execute_matching_c.
  destruct (collect_orders (mprefix (st_orders s) (pr_id pr)) s []) as [[s1 h]|] eqn:E1; [|congruence]. cbn [fst snd].
  assert (Pre : NoDup (map fst (mprefix (st_orders s) (pr_id pr)))) by (apply msorted_NoDup, msorted_filter, (i_orders_sorted _ (v_str _ _ I))).
  assert (Cur : forall k o, In (k, o) (mprefix (st_orders s) (pr_id pr)) -> mget (st_orders s) k = Some o /\ fst k = pr_id pr).
  { intros k o X. apply mprefix_In in X. destruct X as [X Y]. split; [apply snap_current; [apply (i_orders_sorted _ (v_str _ _ I))|assumption]|exact Y]. }
  pose proof (proj1 (inv_ctl Q STrade s) I) as IT.
  destruct (collect_orders_spec (mkCtl (allowed Q) STrade) (pr_id pr) _ (or_introl eq_refl) s [] s1 h IT Pre Cur (Forall_nil _) (NoDup_nil _) (fun _ _ _ X => X) E1) as (M1 & R1 & _).
  pose proof (inv_mics _ _ _ M1 IT) as I1. destruct R1 as (R11 & R12 & R13 & R14 & R15 & R16 & R17 & R18).
  destruct (collect_pools (mprefix (st_plidx s1) (pr_id pr)) pr s1) as [[ss ps]|] eqn:E2; [|congruence]. cbn [fst snd].
  destruct (collect_pools_spec (mkCtl (allowed Q) STrade) pr _ (or_introl eq_refl) s1 ss ps I1 E2) as (M2 & R2 & Sp & Pb).
  assert (Oks : forall k o, In (k, o) (mprefix (st_orders s) (pr_id pr)) -> exists pr', order_ok pr' o).
  { intros k o X. destruct (Cur k o X) as [G _]. destruct (i_orders _ (v_str _ _ I) _ _ G) as (_ & pr' & _ & Ok). exists pr'. exact Ok. }
  destruct (collect_orders_load _ Oks s [] s1 h E1) as (hs & Eh & Sz & Fr). cbn [app] in Eh. subst hs.
  assert (Src : forall uo, In uo h -> exists j o, get_order s (pr_id pr) j = Some o /\ live o = true /\ o_price uo = ko_price o).
  { intros uo Hu. destruct (Fr uo Hu) as ([x y] & o & X & Lv & Ep & _). destruct (Cur _ o X) as [G Ex]. cbn [fst] in Ex. subst x. exists y, o. auto. }
  assert (Fh : Forall fresh_order h) by (apply Forall_forall; intros uo Hu; destruct (Fr uo Hu) as (_ & _ & _ & _ & _ & F); exact F).
  fold (users_load s (pr_id pr)) in Sz.
  assert (K : kmatch iter (st_params s) h ps (pr_last_price pr) <> None -> kmatch_c iter (st_params s) h ps (pr_last_price pr) = kmatch iter (st_params s) h ps (pr_last_price pr)).
  { intros N. pose proof (kmatch_c_some iter (st_params s) h ps (pr_last_price pr)) as Ks.
    assert (Nc : kmatch_c iter (st_params s) h ps (pr_last_price pr) <> None).
    2:{ destruct (kmatch_c iter (st_params s) h ps (pr_last_price pr)) as [m|]; [|congruence]. symmetry. apply Ks. reflexivity. }
    destruct (v_params _ _ I) as [Vp Qp]. pose proof (HQ _ Qp) as Hr. unfold sane_ratio in Hr.
    unfold valid_params in Vp. rewrite !andb_true_iff in Vp. destruct Vp as (((((((((( _ & Vt) & _) & _) & _) & _) & Vr) & _) & _) & _) & _). apply Z.leb_le in Vt, Vr.
    refine (kmatch_c_total iter (st_params s) h ps (pr_last_price pr) P W Hi (conj Vt H88) (conj Vr Hr) Fh Sp HW HPW _ _ N).
    - intros o Ho. destruct (Src o Ho) as (j & ko & G & Lv & ->). exact (HP j ko G Lv).
    - destruct (pr_last_price pr) as [last|] eqn:El.
      + destruct HL as (lo & hi & Elim & Lp & Lh & Sw).
        assert (Lpos : 0 < last).
        { destruct (i_pairs _ (v_str _ _ I) _ _ Gp) as (_ & _ & _ & _ & _ & X & _). apply X. exact El. }
        destruct (price_limits_spec _ _ _ _ _ Vt Lpos (conj Vr Hr) Elim) as (Tl & _). pose proof (tick_pos _ _ Tl) as Lo.
        split; [lia|]. exists lo, hi. split; [exact Elim|]. split; [exact Lh|].
        assert (Gid1 : forall k p, get_pool s1 k = Some p -> pl_id p = k) by (intros k p G; eapply get_pool_id; [exact (v_str _ _ I1)|exact G]).
        assert (Np : NoDup (map fst ps)).
        { refine (proj1 (collect_pools_nodup pr _ s1 ss ps Gid1 _ E2)).
          assert (Nk : NoDup (map fst (mprefix (st_plidx s1) (pr_id pr)))) by (apply msorted_NoDup, msorted_filter, (i_plidx_sorted _ (v_str _ _ I1))).
          rewrite <- (map_map fst snd). apply nodup_map_in; [|exact Nk].
          intros x y Hx Hy E. apply in_map_iff in Hx. destruct Hx as (kx & <- & Hx). apply in_map_iff in Hy. destruct Hy as (ky & <- & Hy).
          destruct kx as [[x1 x2] ux], ky as [[y1 y2] uy]. apply mprefix_In in Hx. apply mprefix_In in Hy. cbn in *. destruct Hx as [_ ->], Hy as [_ ->]. congruence. }
        rewrite Forall_forall in Pb.
        assert (X : forall f d, (forall ip, In ip ps -> f ip = bal (st_bank s1) (PoolReserve (fst ip)) d) -> sumZ (map f ps) <= supply (st_bank s) d).
        { intros f d Hf. rewrite (sumZ_map_ext _ (fun ip => bal (st_bank s1) (PoolReserve (fst ip)) d) ps Hf). rewrite <- (map_map fst (fun i => bal (st_bank s1) (PoolReserve i) d)).
          rewrite <- (supply_trade (mkCtl (allowed Q) STrade) s s1 M1 (v_str _ _ I) eq_refl d). apply reserves_le; [exact (v_bank _ _ I1)|exact Np]. }
        pose proof (X (fun ip => p_rx (snd ip)) (pr_quote pr) (fun ip Hip => proj1 (proj2 (Pb ip Hip)))) as Xx. pose proof (X (fun ip => p_ry (snd ip)) (pr_base pr) (fun ip Hip => proj2 (proj2 (Pb ip Hip)))) as Xy.
        cbn beta in Xx, Xy. unfold pools_load in *.
        assert (sumZ (map (fun ip => p_rx (snd ip)) ps) * P18 / lo <= supply (st_bank s) (pr_quote pr) * P18 / lo) by (apply Z.div_le_mono; [exact Lo|apply Z.mul_le_mono_nonneg_r; [pose proof P18_pos; lia|exact Xx]]).
        lia.
      + destruct HL as (Sw & Dis & Tk). split; [|split; [lia|]].
        * apply (no_active_pools pr (mprefix (st_plidx s1) (pr_id pr)) s1 ss ps); [|exact E2]. intros [[x y] u] p Hkv G. apply mprefix_In in Hkv. destruct Hkv as [Hkv Ex]. cbn in Ex. subst x. apply (snap_current _ _ _ (i_plidx_sorted _ (v_str _ _ I1))) in Hkv. destruct u.
          destruct (i_plidx _ (v_str _ _ I1) _ _ Hkv) as (p0 & G0 & Ep). cbn [fst snd] in G. rewrite G in G0. injection G0 as <-. apply (Dis y p); [|exact Ep]. unfold get_pool in *. rewrite <- R12. exact G.
        * intros o Ho. destruct (Src o Ho) as (j & ko & G & Lv & ->). exact (Tk j ko G Lv). }
  intros N. destruct (kmatch iter (st_params s) h ps (pr_last_price pr)) as [m|] eqn:Em; [|congruence]. rewrite K by discriminate. reflexivity.
Qed.

(** ** The other pairs of the block *)
Lemma roomy_kept (Q : ctl) iter pr s s1 pr' : is_perm_iter iter -> inv Q s -> (forall p, Q p -> sane_ratio p) -> stage_of Q = STrade -> get_pair s (pr_id pr) = Some pr ->
  execute_matching iter pr s = Some s1 -> pr_id pr' <> pr_id pr -> roomy s pr' -> roomy s1 pr'.
Proof.
  intros Hi I HQ T G E Ne (P & W & HW & HPW & HP & HL).
  destruct (execute_matching_spec Q iter pr s s1 Hi I HQ T G E) as (ss & price & hu & ps & _ & _ & M & _ & _ & _ & Ep & _ & _ & Oth & _).
  pose proof (inv_mics Q _ _ M I) as I1.
  assert (Eo : mprefix (st_orders s1) (pr_id pr') = mprefix (st_orders s) (pr_id pr')).
  { apply msorted_ext; [apply msorted_filter, (i_orders_sorted _ (v_str _ _ I1))|apply msorted_filter, (i_orders_sorted _ (v_str _ _ I))|].
    intros k. unfold mprefix. rewrite (mget_filter (st_orders s1)) by (apply msorted_NoDup, (i_orders_sorted _ (v_str _ _ I1))). rewrite (mget_filter (st_orders s)) by (apply msorted_NoDup, (i_orders_sorted _ (v_str _ _ I))).
    destruct (Z.eq_dec (fst k) (pr_id pr)) as [Ek|Nk]; [|rewrite (Oth k Nk); reflexivity]. cbn [fst]. rewrite Ek. destruct (Z.eqb_spec (pr_id pr) (pr_id pr')) as [X|_]; [congruence|].
    destruct (mget (st_orders s1) k), (mget (st_orders s) k); reflexivity. }
  assert (Go : forall j, get_order s1 (pr_id pr') j = get_order s (pr_id pr') j) by (intros j; unfold get_order; apply Oth; exact Ne).
  exists P, W. split; [exact HW|]. split; [exact HPW|]. split; [intros j o; rewrite Go; apply HP|].
  unfold users_load in *. rewrite Ep, Eo. destruct (pr_last_price pr') as [last|].
  - rewrite !(supply_trade Q s s1 M (v_str _ _ I) T). exact HL.
  - destruct HL as (H1 & H2 & H3). split; [exact H1|]. split; [|intros j o; rewrite Go; apply H3].
    assert (St : stage_of Q <> SMsg) by (rewrite T; discriminate).
    intros k p G' Ek. destruct (batch_same_pools s s1 k p Q M St G') as (p0 & G0).
    assert (A : amics (allowed Q) s s1) by (destruct Q as [al st]; exact (mics_amics _ _ _ _ M)).
    assert (Ok : okp (allowed Q) s) by (destruct Q as [al st]; apply (okp_st al st); exact I).
    destruct (l_pools _ _ (later_amics _ _ _ A Ok) _ _ G0) as (p1 & G1 & L1). assert (p1 = p) as -> by congruence. destruct L1 as (_ & Epp & _ & _ & _ & _ & Dd).
    apply Dd. apply (H2 k p0 G0). rewrite <- Epp. exact Ek.
Qed.

Lemma matching_loop_c (Q : ctl) iter l : is_perm_iter iter -> (forall p, Q p -> sane_ratio p) -> stage_of Q = STrade -> forall s, inv Q s ->
  NoDup (map fst l) -> (forall k pr, In (k, pr) l -> mget (st_pairs s) k = Some pr) -> pm_tick_prec (st_params s) <= 88 ->
  (forall k pr, In (k, pr) l -> roomy s pr) ->
  for_each (fun kv : key * pair => execute_matching_c iter (snd kv)) l s = for_each (fun kv : key * pair => execute_matching iter (snd kv)) l s.
Proof.
  intros Hi HQ T. induction l as [|[k pr] l IH]; intros s I N C H88 Ro; cbn [for_each]; [reflexivity|].
  cbn [snd]. pose proof (C k pr (or_introl eq_refl)) as G. pose proof (pairs_key Q _ _ _ I G) as ->.
  pose proof (execute_matching_c_total Q iter pr s Hi I HQ T G H88 (Ro _ pr (or_introl eq_refl))) as Tot.
  pose proof (execute_matching_c_some iter pr s) as Cs.
  destruct (execute_matching iter pr s) as [s1|] eqn:E.
  2:{ destruct (execute_matching_c iter pr s) as [s1|]; [discriminate (Cs s1 eq_refl)|reflexivity]. }
  destruct (execute_matching_c iter pr s) as [s2|]; [|destruct Tot; [discriminate|reflexivity]]. specialize (Cs s2 eq_refl). injection Cs as <-.
  destruct (execute_matching_spec Q iter pr s s1 Hi I HQ T G E) as (ss & price & hu & ps & _ & _ & M & P & _ & _ & Ep & _).
  cbn [map] in N. apply NoDup_cons_iff in N. destruct N as [N1 N2]. cbn [fst] in N1.
  apply (IH s1 (inv_mics Q _ _ M I) N2).
  - intros k' pr' X. rewrite P. rewrite mget_mset_neq; [apply C; right; exact X|]. intros E0. apply N1. rewrite <- E0. exact (in_map fst _ _ X).
  - rewrite Ep. exact H88.
  - intros k' pr' X. apply (roomy_kept Q iter pr s s1 pr' Hi I HQ T G E); [|exact (Ro k' pr' (or_intror X))].
    pose proof (C k' pr' (or_intror X)) as G'. pose proof (pairs_key Q _ _ _ I G') as ->. intros E0. apply N1. rewrite <- E0. exact (in_map fst _ _ X).
Qed.

Lemma end_block_c_same (A : params -> Prop) iter s : is_perm_iter iter -> okp A s -> (forall p, A p -> sane_ratio p) -> pm_tick_prec (st_params s) <= 88 ->
  (forall i pr, get_pair s i = Some pr -> roomy s pr) -> end_block_c iter s = end_block iter s.
Proof.
  intros Hi I HQ H88 Ro. unfold end_block_c, end_block. destruct (_ =? 0); [|reflexivity]. unfold execute_requests_c, execute_requests.
  apply (okp_st A STrade) in I. pose proof (i_pairs_sorted _ (v_str _ _ I)) as So.
  rewrite (matching_loop_c (mkCtl A STrade) iter (st_pairs s) Hi HQ eq_refl s I (msorted_NoDup _ So)); [reflexivity| |exact H88|].
  - intros k pr X. apply snap_current; [exact So|exact X].
  - intros k pr X. apply snap_current in X; [|exact So]. pose proof (pairs_key _ _ _ _ I X) as ->. exact (Ro (pr_id pr) pr X).
Qed.
