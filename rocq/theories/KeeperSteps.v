(** Messages are sequences of elementary steps. *)
From Verif Require Import Base Dec TickModel TickSpec TickProofs OrderModel MatchModel ViewProofs PoolModel PoolProofs PoolOrderProofs RangeProofs RangeCreate KeeperModel KeeperLib KeeperSpec KeeperMicro KeeperBank MatchProofs.

Lemma create_pair_mics (Q : ctl) s u b q s' : stage_of Q = SMsg -> b <> q -> create_pair s u b q = Some s' -> mics Q s s'.
Proof.
  intros HS N H. unfold create_pair in H. inv_do. rename Heqb0 into E1, Heqo into E2.
  econstructor; [apply mic_pay with (1 := E2); exact HS|]. apply mics_one.
  apply st_send_spec in E2. destruct E2 as (bk & -> & _). change (mic Q (set_bank s bk) (add_pair (set_bank s bk) b q)).
  apply mic_new_pair; [assumption| |exact HS]. intros i Hi. change (st_pidx s b q = Some i) in Hi. rewrite Hi in E1. change (get_pair s i = None).
  destruct (get_pair s i); [discriminate E1|reflexivity].
Qed.

Lemma create_pool_tail_mics (Q : ctl) s u pr kind ps dc s' : stage_of Q = SMsg -> valid_params (st_params s) = true -> get_pair s (pr_id pr) = Some pr ->
  num_active s (pr_id pr) < pm_max_pools (st_params s) -> (kind = PBasic -> existsb active_basic (pools_of_pair s (pr_id pr)) = false) ->
  good_kind kind -> create_pool_tail s u pr kind ps dc = Some s' -> mics Q s s'.
Proof.
  intros HS V Hp Hn Hb Hk H. unfold create_pool_tail in H. inv_do. rename Heqo into E1, Heqo0 into E2, Heqo1 into E3.
  assert (M : 0 < Z.max ps (pm_min_supply (st_params s))) by (unfold valid_params in V; lia).
  econstructor; [apply (mic_new_pool Q s (pr_id pr) u kind); [congruence|assumption..]|].
  econstructor; [apply mic_pay with (1 := E1); exact HS|]. econstructor; [apply mic_pay with (1 := E2); exact HS|]. apply mics_one.
  destruct (new_coins_one _ _ _ E3) as (_ & _ & _ & _ & EC). destruct (Z.eqb_spec (Z.max ps (pm_min_supply (st_params s))) 0); [lia|].
  apply st_send_spec in E1. destruct E1 as (b1 & -> & _). apply st_send_spec in E2. destruct E2 as (b2 & -> & _).
  apply st_send_spec in H. destruct H as (b3 & -> & H). rewrite EC in H.
  match goal with |- mic Q ?s0 _ => change (mic Q s0 (set_bank s0 b3)) end.
  apply (mic_mint Q _ (st_last_pool s + 1) (Z.max ps (pm_min_supply (st_params s))) u); [assumption| | |exact HS].
  - change (get_pool (add_pool s (pr_id pr) u kind) (st_last_pool s + 1) <> None). rewrite get_pool_add, Z.eqb_refl. discriminate.
  - cbn [st_bank set_bank] in *. destruct (mint_one b2 (PoolCoin (st_last_pool s + 1)) (Z.max ps (pm_min_supply (st_params s)))) as (M1 & M2).
    destruct (send_spec _ _ _ _ _ H) as (_ & (S1 & S2) & _). split.
    + intros a d. rewrite S1, M1. unfold at_acc, of_denom. cbn [amount_of]. destruct (addr_eqb a DexModule), (addr_eqb a (User u)), (denom_eqb d (PoolCoin (st_last_pool s + 1))); cbn; lia.
    + intros d. rewrite S2, M2. reflexivity.
Qed.

Lemma create_pool_mics (Q : ctl) s u i cs s' : stage_of Q = SMsg -> inv Q s -> create_pool s u i cs = Some s' -> mics Q s s'.
Proof.
  intros HS [S _ _ [V _]] H. unfold create_pool in H. inv_do.
  assert (pr_id p = i) by (eapply get_pair_id; eassumption).
  apply (create_pool_tail_mics Q s u p PBasic (p_ps p0) cs); auto; [congruence|lia|exact I].
Qed.

Lemma create_rpool_mics (Q : ctl) s u i cs a b c s' : stage_of Q = SMsg -> inv Q s -> create_rpool s u i cs a b c = Some s' -> mics Q s s'.
Proof.
  intros HS [S _ _ [V _]] H. unfold create_rpool in H. cbn zeta in H. inv_do.
  assert (pr_id p = i) by (eapply get_pair_id; eassumption).
  match goal with H : of_res (create_ranged_pool ?x ?y ?m ?n ?k) = Some (Some ?p0) |- _ => destruct (create_ranged_pool x y m n k) eqn:EC; [|discriminate H|discriminate H]; cbn in H; injection H as -> end.
  pose proof (create_ranged_facts _ _ _ _ _ _ EC) as (_ & G & _).
  eapply create_pool_tail_mics with (7 := H); auto; [congruence|lia|discriminate].
Qed.

Lemma deposit_msg_mics (Q : ctl) s u i cs s' : stage_of Q = SMsg -> inv Q s -> valid_coins cs = true -> (length cs = 1 \/ length cs = 2)%nat -> deposit_msg s u i cs = Some s' -> mics Q s s'.
Proof.
  intros HS [S _ _ _] V L H. unfold deposit_msg in H. inv_do. apply mics_one.
  match goal with H : get_pool s i = Some ?p0 |- _ => assert (pl_id p0 = i) by (eapply get_pool_id; eassumption); subst i; rename p0 into pl end.
  match goal with H : get_pair s _ = Some ?p0 |- _ => rename p0 into pr end.
  replace (mkPool _ _ _ _ _ _ false) with (pool_next_dep pl) by (unfold pool_next_dep; congruence).
  match goal with H : st_send s _ _ _ = Some ?s0 |- _ => refine (mic_dep_new Q s pl pr u cs s0 _ _ _ _ _ _ _ HS); auto end.
  - intros c Hc. destruct (in_pair pr (fst c)) eqn:E; [reflexivity|]. match goal with H : existsb _ cs = false |- _ => rewrite (proj2 (existsb_exists _ _)) in H; [discriminate H|] end.
    exists c. rewrite E. auto.
  - intros ->. cbn in L. lia.
  - lia.
Qed.

Lemma withdraw_msg_mics (Q : ctl) s u i d x s' : stage_of Q = SMsg -> inv Q s -> 0 < x -> withdraw_msg s u i d x = Some s' -> mics Q s s'.
Proof.
  intros HS [S _ _ _] L H. unfold withdraw_msg in H. inv_do. apply mics_one.
  match goal with H : get_pool s i = Some ?p0 |- _ => assert (pl_id p0 = i) by (eapply get_pool_id; eassumption); subst i; rename p0 into pl end.
  match goal with H : negb (denom_eqb d ?e) = false |- _ => destruct (denom_eqb_spec d e) as [->|]; [|discriminate H] end.
  replace (mkPool _ _ _ _ _ _ false) with (pool_next_wd pl) by (unfold pool_next_wd; congruence).
  match goal with H : st_send s _ _ _ = Some ?s0 |- _ => refine (mic_wd_new Q s pl u x s0 _ _ _ _ HS); auto end.
Qed.

Lemma too_small_ok amt price : is_too_small amt price = Ok false -> min_coin_amount <= amt /\ of_int min_coin_amount <= price * amt < 2 ^ 315 /\ 0 < price.
Proof.
  unfold is_too_small. destruct (Z.ltb_spec amt min_coin_amount); [discriminate|]. intros X. apply rbind_ok in X. destruct X as (v & Hv & X).
  injection X as X. split; [assumption|].
  apply chk_dec_ok in Hv. destruct Hv as [-> B]. unfold dmul_int in *. assert (0 < of_int min_coin_amount) by reflexivity.
  change ((price * amt <? of_int min_coin_amount) = false) in X. apply Z.ltb_ge in X. assert (0 < min_coin_amount) by reflexivity. split; [lia|]. nia.
Qed.

(** The price an order is placed at is a tick. *)
Lemma placed_tick d prec target rp : 0 <= prec -> 0 < target -> of_res (match d with Buy => price_to_down_tick_chk target prec | Sell => price_to_up_tick_chk target prec end) = Some rp -> is_tick prec rp.
Proof.
  intros Hp Ht H. unfold price_to_down_tick_chk, price_to_up_tick_chk in H. destruct d; (destruct (Z.eqb_spec target 0); [discriminate H|]); cbn [of_res] in H; injection H as <-.
  - exact (proj1 (price_to_down_tick_spec target prec Hp Ht)).
  - exact (proj1 (price_to_up_tick_spec target prec Hp Ht)).
Qed.
Lemma some_pair_inj (a b c d : Z) : Some (a, b) = Some (c, d) -> a = c /\ b = d.
Proof. intros X. injection X as -> ->. auto. Qed.
Lemma placed_target typ (d : dir) price last prec ratio target : 0 <= prec -> 0 <= ratio < P18 -> (forall x, last = Some x -> 0 < x) ->
  (match typ, price with
   | TMarket, _ => if is_some last then Some tt else None
   | _, None => None
   | _, Some px =>
     match (match last with
               | Some last => of_res (price_limits last ratio prec)
               | None => match lowest_tick_chk prec with Some lo => Some (lo, highest_tick prec) | None => None end
               end) with Some lim => if (snd lim <? px) || (px <? fst lim) then None else Some tt | None => None end
   end) = Some tt ->
  (match d, typ, last with
   | Buy, TMarket, Some last => of_res (c_mul last (one_dec + ratio))
   | Sell, TMarket, Some last => of_res (c_mul last (one_dec - ratio))
   | _, _, _ => price
   end) = Some target -> 0 < target \/ target = 0.
Proof.
  intros Hp Hr Lp Elim Etg.
  assert (Lim : typ <> TMarket -> 0 < target).
  { intros N. assert (Epx : price = Some target) by (destruct d, typ, last; try congruence; try exact Etg; exfalso; apply N; reflexivity). subst price.
    assert (X : exists lim, (match last with Some last => of_res (price_limits last ratio prec) | None => match lowest_tick_chk prec with Some lo => Some (lo, highest_tick prec) | None => None end end) = Some lim /\ fst lim <= target).
    { destruct typ; [|congruence|]; (destruct (match last with Some last => _ | None => _ end) as [lim|]; [|discriminate Elim]; exists lim; split; [reflexivity|]; destruct (snd lim <? target); [discriminate Elim|]; cbn [orb] in Elim; destruct (Z.ltb_spec target (fst lim)); [discriminate Elim|lia]). }
    destruct X as ([lo hi] & X & L). cbn [fst] in L. destruct last as [last|].
    - destruct (price_limits last ratio prec) as [[a b]| |] eqn:El; [|discriminate X..]. cbn [of_res] in X. destruct (some_pair_inj _ _ _ _ X) as [-> ->].
      destruct (price_limits_spec _ _ _ _ _ Hp (Lp _ eq_refl) Hr El) as (T & _). pose proof (tick_pos _ _ T). lia.
    - unfold lowest_tick_chk in X. destruct (18 <? prec); [discriminate X|]. destruct (some_pair_inj _ _ _ _ X) as [<- _]. pose proof (tick_pos _ _ (lowest_is_tick prec Hp)). lia. }
  destruct typ; [left; apply Lim; discriminate| |left; apply Lim; discriminate]. clear Lim.
  destruct last as [last|]; [|discriminate Elim]. specialize (Lp last eq_refl).
  assert (X : exists k, 0 <= k /\ target = dmul last k).
  { unfold one_dec in Etg. destruct d; [destruct (c_mul last (P18 + ratio)) as [m| |] eqn:E|destruct (c_mul last (P18 - ratio)) as [m| |] eqn:E]; cbn [of_res] in Etg; try discriminate Etg; apply c_mul_ok in E; injection Etg as <-; eexists; (split; [|exact E]); lia. }
  destruct X as (k & Hk & ->). pose proof (dmul_near last k ltac:(lia) Hk). lia.
Qed.
Lemma place_order_facts s typ u i d od offer dd price amt l s' : str s -> place_order s typ u i d od offer dd price amt l = Some s' ->
  exists pr rp s1, (0 <= pm_tick_prec (st_params s) -> 0 <= pm_price_ratio (st_params s) < P18 -> is_tick (pm_tick_prec (st_params s)) rp) /\ get_pair s (pr_id pr) = Some pr /\ pr_id pr = i /\ 0 < rp /\ min_coin_amount <= amt /\ of_int min_coin_amount <= rp * amt < 2 ^ 315 /\
    st_send s (User u) (PairEscrow (pr_id pr)) [(offer_denom_of pr d, offer_coin_amount d rp amt)] = Some s1 /\ offer_coin_amount d rp amt <= offer /\
    s' = (let s2 := put_pair s1 (mkPair (pr_id pr) (pr_base pr) (pr_quote pr) (pr_last_order pr + 1) (pr_last_price pr) (pr_batch pr)) in
        let o := mkKOrder typ (pr_last_order pr + 1) (pr_id pr) (st_height s) (User u) d (offer_denom_of pr d) (offer_coin_amount d rp amt) (offer_coin_amount d rp amt) (demand_denom_of pr d) 0
                   rp amt amt (pr_batch pr) (st_time s + l) ONotExecuted in
        oidx_add (put_order s2 o) o).
Proof.
  intros S H. unfold place_order in H. cbn zeta in H.
  destruct (bal (st_bank s) (User u) od <? offer); [discriminate H|]. destruct (pm_max_lifespan (st_params s) <? l); [discriminate H|].
  destruct (get_pair s i) as [pr|] eqn:Ep; [|discriminate H].
  match type of H with (match ?e with Some _ => _ | None => None end) = _ => destruct e eqn:Elim; [|discriminate H] end.
  match type of H with (match ?e with Some _ => _ | None => None end) = _ => destruct e as [target|] eqn:Etg; [|discriminate H] end.
  match type of H with (match ?e with Some _ => _ | None => None end) = _ => destruct e as [rp|] eqn:Erp; [|discriminate H] end.
  assert (Tk : 0 <= pm_tick_prec (st_params s) -> 0 <= pm_price_ratio (st_params s) < P18 -> is_tick (pm_tick_prec (st_params s)) rp).
  { intros Hp Hr. destruct u0. destruct (i_pairs _ S _ _ Ep) as (_ & _ & _ & _ & _ & Lp & _). apply (placed_tick d (pm_tick_prec (st_params s)) target rp Hp); [|exact Erp].
    destruct (placed_target typ d price (pr_last_price pr) (pm_tick_prec (st_params s)) (pm_price_ratio (st_params s)) target Hp Hr Lp Elim Etg) as [X|X]; [exact X|]. rewrite X in Erp. unfold price_to_down_tick_chk, price_to_up_tick_chk in Erp. destruct d; discriminate Erp. }
  match type of H with (if ?e then None else _) = _ => destruct e eqn:Ed; [discriminate H|] end.
  destruct (offer_coin_amount d rp amt <? 0); [discriminate H|]. destruct (offer <? offer_coin_amount d rp amt) eqn:Eo; [discriminate H|].
  destruct (is_too_small amt rp) as [sm| |] eqn:Es; [|discriminate H|discriminate H]. cbn [of_res] in H. destruct sm; [discriminate H|].
  apply too_small_ok in Es. destruct Es as (E1 & E2 & E3).
  destruct (new_coins _) as [oc|] eqn:En; [|discriminate H].
  destruct (st_send _ _ _ _) as [s1|] eqn:Esd; [|discriminate H].
  assert (pr_id pr = i) as <- by (eapply get_pair_id; eassumption).
  assert (ED : od = offer_denom_of pr d /\ dd = demand_denom_of pr d).
  { apply negb_false_iff in Ed. destruct d; apply andb_true_iff in Ed; destruct Ed as [D1 D2]; cbn;
      destruct (denom_eqb_spec od (pr_base pr)), (denom_eqb_spec od (pr_quote pr)), (denom_eqb_spec dd (pr_base pr)), (denom_eqb_spec dd (pr_quote pr)); try discriminate; auto. }
  destruct ED as [-> ->]. exists pr, rp, s1. split; [exact Tk|].
  pose proof (offer_coin_amount_pos d rp amt E3 ltac:(unfold min_coin_amount in *; lia)).
  destruct (new_coins_one _ _ _ En) as (_ & _ & _ & _ & EC). destruct (Z.eqb_spec (offer_coin_amount d rp amt) 0); [lia|]. subst oc.
  injection H as <-. repeat (split; [first [assumption|reflexivity|lia]|]). reflexivity.
Qed.

Lemma place_order_spec s typ u i d od offer dd price amt l s' : str s -> place_order s typ u i d od offer dd price amt l = Some s' ->
  exists pr rp s1, get_pair s (pr_id pr) = Some pr /\ pr_id pr = i /\ 0 < rp /\ min_coin_amount <= amt /\ of_int min_coin_amount <= rp * amt < 2 ^ 315 /\
    st_send s (User u) (PairEscrow (pr_id pr)) [(offer_denom_of pr d, offer_coin_amount d rp amt)] = Some s1 /\ offer_coin_amount d rp amt <= offer /\
    s' = (let s2 := put_pair s1 (mkPair (pr_id pr) (pr_base pr) (pr_quote pr) (pr_last_order pr + 1) (pr_last_price pr) (pr_batch pr)) in
        let o := mkKOrder typ (pr_last_order pr + 1) (pr_id pr) (st_height s) (User u) d (offer_denom_of pr d) (offer_coin_amount d rp amt) (offer_coin_amount d rp amt) (demand_denom_of pr d) 0
                   rp amt amt (pr_batch pr) (st_time s + l) ONotExecuted in
        oidx_add (put_order s2 o) o).
Proof.
  intros S H. destruct (place_order_facts s typ u i d od offer dd price amt l s' S H) as (pr & rp & s1 & _ & X). exists pr, rp, s1. exact X.
Qed.

Lemma place_order_mics (Q : ctl) s typ u i d od offer dd price amt l s' : stage_of Q = SMsg -> inv Q s -> 0 <= l -> typ <> TMM ->
  place_order s typ u i d od offer dd price amt l = Some s' -> mics Q s s'.
Proof.
  intros HS [S _ _ _] L T H. destruct (place_order_facts _ _ _ _ _ _ _ _ _ _ _ _ S H) as (pr & rp & s1 & Tk & H1 & H2 & H3 & H4 & H5 & H6 & _ & ->).
  pose proof H6 as H6'. apply st_send_spec in H6'. destruct H6' as (b & Es & _).
  apply mics_one. cbn zeta. replace (oidx_add _ _) with (add_order s1 typ u pr d rp amt l).
  - apply (mic_place Q s typ u pr d rp amt l s1); auto. intros ->. congruence.
  - subst s1. destruct typ; [reflexivity|reflexivity|congruence].
Qed.

Lemma mm_order_mics (Q : ctl) s u i d od offer dd price amt l s' : stage_of Q = SMsg -> inv Q s -> 0 <= l -> mm_order s u i d od offer dd price amt l = Some s' -> mics Q s s'.
Proof.
  intros HS [S _ _ _] L H. unfold mm_order in H. cbn zeta in H. destruct (_ <=? _) eqn:E; [discriminate H|].
  destruct (place_order _ _ _ _ _ _ _ _ _ _ _) as [s2|] eqn:E2; [|discriminate H]. injection H as <-.
  destruct (place_order_facts _ _ _ _ _ _ _ _ _ _ _ _ S E2) as (pr & rp & s1 & Tk & H1 & H2 & H3 & H4 & H5 & H6 & _ & ->).
  pose proof H6 as H6'. apply st_send_spec in H6'. destruct H6' as (b & Es & _). subst i.
  apply mics_one. replace (set_mm_count _ _ _ _) with (add_order s1 TMM u pr d rp amt l).
  - apply (mic_place Q s TMM u pr d rp amt l s1); auto. intros _. lia.
  - subst s1. reflexivity.
Qed.

Lemma finish_order_mics (Q : ctl) s o st s' : ends_ok Q st -> get_order s (ko_pair o) (ko_id o) = Some o -> o_terminal st = true -> finish_order s o st = Some s' -> mics Q s s'.
Proof.
  intros HS H T F. destruct (live o) eqn:L.
  - apply mics_one. exact (mic_finish Q s o st s' H L T F HS).
  - unfold live in L. apply negb_false_iff in L. unfold finish_order in F. rewrite L in F. injection F as <-. constructor.
Qed.

Lemma ends_cancel (Q : ctl) : stage_of Q = SMsg -> ends_ok Q OCanceled.
Proof. intros E. split; [congruence|tauto]. Qed.
Lemma ends_batch (Q : ctl) st : batching Q -> st <> OCanceled -> ends_ok Q st.
Proof. intros [E|E] N; (split; [congruence|split; congruence]). Qed.
Lemma cancel_order_mics (Q : ctl) s u i j s' : stage_of Q = SMsg -> inv Q s -> cancel_order s u i j = Some s' -> mics Q s s'.
Proof.
  intros HS [S _ _ _] H. unfold cancel_order in H. cbn zeta in H. destruct (get_order s i j) as [o|] eqn:E; [|discriminate H].
  destruct (get_order_id _ _ _ _ S E) as [<- <-].
  match type of H with (if ?e then None else _) = _ => destruct e; [discriminate H|] end.
  match type of H with (if ?e then None else _) = _ => destruct e; [discriminate H|] end.
  match type of H with (if ?e then None else _) = _ => destruct e; [discriminate H|] end.
  apply (finish_order_mics Q s o OCanceled s' (ends_cancel Q HS) E); auto.
Qed.

Lemma cancel_one_mics (Q : ctl) ids k s s' : stage_of Q = SMsg -> str s -> cancel_one ids k s = Some s' -> mics Q s s'.
Proof.
  intros HS S H. unfold cancel_one in H. destruct (get_order s (fst k) (snd k)) as [o|] eqn:E; [|discriminate H].
  destruct (get_order_id _ _ _ _ S E) as [E1 E2]. rewrite <- E1, <- E2 in E.
  match type of H with (if ?e then _ else _) = _ => destruct e; [|injection H as <-; constructor] end. cbn zeta in H.
  match type of H with (if ?e then _ else _) = _ => destruct e; [|injection H as <-; constructor] end.
  apply (finish_order_mics Q s o OCanceled s' (ends_cancel Q HS) E); auto.
Qed.

Lemma for_each_mics {A} Q (f : A -> state -> option state) l : (forall x s s', inv Q s -> f x s = Some s' -> mics Q s s') ->
  forall s s', inv Q s -> for_each f l s = Some s' -> mics Q s s'.
Proof.
  intros Hf. induction l as [|x l IH]; intros s s' I H; cbn in H; [injection H as <-; constructor|].
  destruct (f x s) as [s1|] eqn:E; [|discriminate H]. pose proof (Hf _ _ _ I E) as M.
  eapply mics_trans; [exact M|]. apply IH; [|assumption]. exact (inv_mics Q _ _ M I).
Qed.

Lemma cancel_all_mics (Q : ctl) s u ids s' : stage_of Q = SMsg -> inv Q s -> cancel_all s u ids = Some s' -> mics Q s s'.
Proof.
  intros HS I H. unfold cancel_all in H. destruct (existsb _ ids); [discriminate H|].
  refine (for_each_mics Q _ _ _ s s' I H). intros x a b Ia Hx. exact (cancel_one_mics Q ids x a b HS (v_str _ _ Ia) Hx).
Qed.

Theorem deliver_mics (Q : ctl) s m s' : stage_of Q = SMsg -> inv Q s -> (forall p, m = MUpdateParams p -> Q p) -> deliver s m = Some s' -> mics Q s s'.
Proof.
  intros HS I HQ H. assert (HB : stage_of Q <> SBegin) by congruence. unfold deliver in H. destruct (validate_basic m) eqn:V; [|discriminate H]. destruct m; cbn [handle validate_basic] in H, V.
  - apply (create_pair_mics Q s u base quote s' HS); [|assumption]. intros ->. rewrite denom_eqb_refl in V. discriminate V.
  - exact (create_pool_mics Q s u i cs s' HS I H).
  - exact (create_rpool_mics Q s u i cs minp maxp initp s' HS I H).
  - rewrite !andb_true_iff, orb_true_iff in V. destruct V as [[_ V] L]. apply (deposit_msg_mics Q s u i cs s' HS I V); [|assumption].
    destruct L as [L|L]; apply Nat.eqb_eq in L; auto.
  - apply (withdraw_msg_mics Q s u i d x s' HS I); [lia|assumption].
  - rewrite !andb_true_iff in V. apply (place_order_mics Q _ _ _ _ _ _ _ _ _ _ _ _ HS I) with (3 := H); [lia|congruence].
  - rewrite !andb_true_iff in V. apply (place_order_mics Q _ _ _ _ _ _ _ _ _ _ _ _ HS I) with (3 := H); [lia|congruence].
  - rewrite !andb_true_iff in V. apply (mm_order_mics Q _ _ _ _ _ _ _ _ _ _ _ HS I) with (2 := H). lia.
  - exact (cancel_order_mics Q s u i j s' HS I H).
  - exact (cancel_all_mics Q s u ids s' HS I H).
  - destruct (valid_params p) eqn:P; [|discriminate H]. injection H as <-. apply mics_one. apply mic_params; auto.
  - apply mics_one. apply mic_pay with (1 := H). exact HS.
Qed.

Theorem begin_block_mics (Q : ctl) s t : stage_of Q = SBegin -> st_time s <= t -> mics Q s (begin_block s t).
Proof.
  intros HS H. econstructor; [apply (mic_clock Q s (st_height s + 1) t); [lia|lia|exact HS]|]. apply mics_one. apply mic_delete. exact HS.
Qed.
