(** The loops of the end blocker complete. *)
From Verif Require Import Base Dec DecProofs OrderModel MatchModel MatchSpec OrderProofs MatchProofs PoolModel PoolProofs
  KeeperModel KeeperLib KeeperSpec KeeperMicro KeeperInv KeeperBank KeeperSteps KeeperReqs KeeperOrders KeeperBulk KeeperTrade KeeperSettle KeeperCancel CoverSpec KeeperCover KeeperHist InvariantProofs KeeperHalt.

(** ** What the steps keep *)
Lemma basic_mics (Q : ctl) s s' : mics Q s s' -> inv Q s -> stage_of Q <> SMsg -> basic_only s -> basic_only s'.
Proof.
  intros M I T B k p G D. destruct (batch_same_pools s s' k p Q M T G) as (p0 & G0).
  assert (A : amics (allowed Q) s s') by (destruct Q as [al st]; exact (mics_amics _ _ _ _ M)).
  assert (Ok : okp (allowed Q) s) by (destruct Q as [al st]; apply (okp_st al st); exact I).
  destruct (l_pools _ _ (later_amics _ _ _ A Ok) _ _ G0) as (p1 & G1 & L1). assert (p1 = p) as -> by congruence. destruct L1 as (_ & _ & Ek & _ & _ & _ & Dd).
  rewrite Ek. apply (B k p0 G0). destruct (pl_disabled p0); [rewrite Dd in D; [discriminate D|reflexivity]|reflexivity].
Qed.

Lemma above_kept (Q : ctl) iter pr s s1 i : is_perm_iter iter -> inv Q s -> (forall p, Q p -> sane_ratio p) -> stage_of Q = STrade -> get_pair s (pr_id pr) = Some pr ->
  execute_matching iter pr s = Some s1 -> i <> pr_id pr -> sells_above_one s i -> sells_above_one s1 i.
Proof.
  intros Hi I HQ T G E Ni (Us & Pl).
  destruct (execute_matching_spec Q iter pr s s1 Hi I HQ T G E) as (ss & price & hu & ps & _ & _ & M & P & _ & _ & Ep & Et & _ & Oth & _). split.
  - intros j o Go. apply (Us j o). unfold get_order in *. rewrite <- Go. symmetry. apply Oth. exact Ni.
  - destruct Pl as [Np|Lim].
    + left. intros k p Gk Pk. assert (A : amics (allowed Q) s s1) by (destruct Q as [al st]; exact (mics_amics _ _ _ _ M)).
      assert (Ok : okp (allowed Q) s) by (destruct Q as [al st]; apply (okp_st al st); exact I). pose proof (later_amics _ _ _ A Ok) as La.
      destruct (batch_same_pools s s1 k p Q M ltac:(rewrite T; discriminate) Gk) as (p0 & G0).
      destruct (l_pools _ _ La _ _ G0) as (p1 & G1 & L1). assert (p1 = p) as -> by congruence. destruct L1 as (_ & Pp & _ & _ & _ & _ & Dd). apply Dd. apply (Np k p0 G0). congruence.
    + right. intros pr0 Gp. rewrite Ep. apply Lim. unfold get_pair in *. rewrite P, mget_mset_neq in Gp; [exact Gp|]. intros E0. apply Ni. congruence.
Qed.

(** ** The matching loop *)
Lemma matching_loop_total (Q : ctl) iter l : is_perm_iter iter -> (forall p, Q p -> sane_ratio p) -> stage_of Q = STrade -> forall s, inv Q s ->
  NoDup (map fst l) -> (forall k pr, In (k, pr) l -> mget (st_pairs s) k = Some pr) -> pm_tick_prec (st_params s) <= 18 -> basic_only s -> bounded_supply s ->
  (forall i d, 0 <= slack s i d) ->
  (forall k pr, In (k, pr) l -> sells_above_one s (pr_id pr) /\ has_limits (st_params s) (pr_last_price pr)) ->
  exists s', for_each (fun kv : key * pair => execute_matching iter (snd kv)) l s = Some s' /\ forall i d, 0 <= slack s' i d.
Proof.
  intros Hi HQ T. induction l as [|[k pr] l IH]; intros s I N C H18 Bo Bs Sl Ab; cbn [for_each]; [exists s; split; [reflexivity|exact Sl]|].
  cbn [snd]. pose proof (C k pr (or_introl eq_refl)) as G. pose proof (pairs_key Q _ _ _ I G) as ->. destruct (Ab _ pr (or_introl eq_refl)) as [Ab1 Hl].
  destruct (execute_matching iter pr s) as [s1|] eqn:E.
  2:{ exfalso. exact (execute_matching_total Q iter pr s Hi I HQ T G H18 (Sl _) Ab1 Bo Hl Bs E). }
  destruct (execute_matching_spec Q iter pr s s1 Hi I HQ T G E) as (ss & price & hu & ps & _ & _ & M & P & _ & _ & Ep & Et & _ & Oth & _).
  cbn [map] in N. apply NoDup_cons_iff in N. destruct N as [N1 N2]. cbn [fst] in N1.
  apply (IH s1 (inv_mics Q _ _ M I) N2).
  - intros k' pr' X. rewrite P. rewrite mget_mset_neq; [apply C; right; exact X|]. intros E0. apply N1. rewrite <- E0. exact (in_map fst _ _ X).
  - rewrite Ep. exact H18.
  - exact (basic_mics Q s s1 M I ltac:(rewrite T; discriminate) Bo).
  - intros d. rewrite (supply_trade Q s s1 M (v_str _ _ I) T). apply Bs.
  - intros i d. specialize (Sl i d). pose proof (matching_slack Q iter pr s s1 i d Hi I HQ T G E) as X. cut (slack s i d <= slack s1 i d); [lia|]. apply X. intros <- _. exact Ab1.
  - intros k' pr' X. destruct (Ab k' pr' (or_intror X)) as [A1 A2]. rewrite Ep. split; [|exact A2].
    pose proof (C k' pr' (or_intror X)) as G'. pose proof (pairs_key Q _ _ _ I G') as ->.
    apply (above_kept Q iter pr s s1 (pr_id pr') Hi I HQ T G E); [|exact A1]. intros E0. apply N1. rewrite <- E0. exact (in_map fst _ _ X).
Qed.

(** ** The expiry loop *)
Lemma expire_total (Q : ctl) s k o : inv Q s -> mget (st_orders s) k = Some o -> (forall i d, 0 <= slack s i d) -> expire_order o s <> None.
Proof.
  intros I G Sl. destruct (i_orders _ (v_str _ _ I) _ _ G) as (Ek & pr & Gp & Ok). destruct Ok as (_ & _ & _ & _ & _ & _ & P & Op & _ & _ & Bd & _). subst k.
  assert (Fin : forall st, finish_order s o st <> None).
  { intros st. destruct (live o) eqn:L; [|unfold finish_order; unfold live in L; apply negb_false_iff in L; rewrite L; discriminate].
    apply finish_order_succeeds; [exact L|rewrite Gp; discriminate|]. apply (owed_covers s o Q I G L). apply Sl. }
  unfold expire_order. destruct (_ && _); [apply Fin|].
  assert (X : exists b, is_too_small (ko_open o) (ko_price o) = Ok b).
  { unfold is_too_small. destruct (_ <? _); [eauto|]. assert (Hs : 0 <= ko_price o * ko_open o < 2 ^ 315) by nia.
    unfold c_mul_int, dmul_int. rewrite chk_dec_fits; [cbn [rbind]; eauto|]. lia. }
  destruct X as (b & ->). cbn [of_res]. destruct b; [apply Fin|discriminate].
Qed.

Lemma expire_loop_total (Q : ctl) s : stage_of Q = SReq -> inv Q s -> (forall i d, 0 <= slack s i d) ->
  exists s', for_each (fun kv : key * korder => expire_order (snd kv)) (st_orders s) s = Some s'.
Proof.
  intros T I Sl. pose proof (i_orders_sorted _ (v_str _ _ I)) as So. pose proof (msorted_NoDup _ So) as Nd.
  assert (Cur : forall k v, In (k, v) (st_orders s) -> mget (st_orders s) k = Some v) by (intros k v; apply snap_current; exact So).
  assert (X : for_each (fun kv : key * korder => expire_order (snd kv)) (st_orders s) s <> None).
  { apply for_each_total. intros l1 [k o] l2 t El Et. cbn [snd]. rewrite El in Nd.
    assert (Cur' : forall k' v, In (k', v) (l1 ++ (k, o) :: l2) -> mget (st_orders s) k' = Some v) by (intros k' v; rewrite <- El; apply Cur).
    destruct (for_each_prefix Q st_orders expire_order l1 (k, o) l2 (fun k v a b Ia G F => expire_mics Q v k a b (or_intror T) Ia G F) Nd s t I Cur' Et) as [M C].
    apply (expire_total Q t k o (inv_mics _ _ _ M I) (C k o (or_introl eq_refl))).
    intros i d. specialize (Sl i d). pose proof (slack_mics Q s t i d M I ltac:(rewrite T; discriminate)). lia. }
  destruct (for_each _ _ _) as [s'|]; [eauto|congruence].
Qed.

(** ** Deposit and withdraw requests *)
Lemma coins_sub_ok a b : valid_coins b = true -> (forall d, amount_of b d <= amount_of a d) -> exists c, coins_sub a b = Some c.
Proof.
  intros Vb H. unfold coins_sub. destruct (existsb _ b) eqn:E; [|eauto]. exfalso. apply existsb_exists in E. destruct E as ([d x] & Hin & E). cbn [fst snd] in E. apply Z.ltb_lt in E. specialize (H d).
  assert (amount_of b d = x); [|lia]. clear -Vb Hin. induction b as [|[d0 x0] b IH]; [destruct Hin|]. destruct (valid_coins_cons _ _ _ Vb) as (X0 & Hn & Vb').
  destruct Hin as [E|Hin].
  - injection E as -> ->. cbn. rewrite denom_eqb_refl. reflexivity.
  - cbn. destruct (denom_eqb_spec d d0) as [->|]; [|apply IH; assumption].
    exfalso. unfold has_denom in Hn. rewrite (proj2 (existsb_exists _ b)) in Hn; [discriminate Hn|]. exists (d0, x). split; [exact Hin|]. cbn [fst]. apply denom_eqb_refl.
Qed.

Lemma dep_held (Q : ctl) s r : inv Q s -> mget (st_deps s) (dr_pool r, dr_id r) = Some r -> dr_status r = RNotExecuted -> (forall d, 0 <= excess s d) ->
  forall d, amount_of (dr_coins r) d <= bal (st_bank s) GlobalEscrow d.
Proof.
  intros I G P Ex d. specialize (Ex d). unfold excess in Ex. rewrite requests_owed_eq in Ex.
  assert (0 <= msum (wd_due d) (st_wds s)).
  { apply msum_nonneg. intros k v Hin. destruct (i_wds _ (v_str _ _ I) _ _ (snap_current _ _ _ (i_wds_sorted _ (v_str _ _ I)) Hin)) as (_ & _ & _ & W & _). unfold wd_due. destruct (_ && _); lia. }
  assert (dep_due d r <= msum (dep_due d) (st_deps s)).
  { apply (msum_ge1 _ _ (dr_pool r, dr_id r)); [|apply mget_In; exact G]. intros k v Hin. destruct (i_deps _ (v_str _ _ I) _ _ (snap_current _ _ _ (i_deps_sorted _ (v_str _ _ I)) Hin)) as (_ & _ & V & _).
    unfold dep_due. pose proof (valid_amount_nonneg _ d V). destruct (pending _); lia. }
  unfold dep_due in H0 at 1. rewrite P in H0. cbn [pending] in H0. lia.
Qed.

Lemma wd_held (Q : ctl) s r : inv Q s -> mget (st_wds s) (wr_pool r, wr_id r) = Some r -> wr_status r = RNotExecuted -> (forall d, 0 <= excess s d) ->
  wr_amt r <= bal (st_bank s) GlobalEscrow (wr_denom r).
Proof.
  intros I G P Ex. specialize (Ex (wr_denom r)). unfold excess in Ex. rewrite requests_owed_eq in Ex.
  assert (0 <= msum (dep_due (wr_denom r)) (st_deps s)).
  { apply msum_nonneg. intros k v Hin. destruct (i_deps _ (v_str _ _ I) _ _ (snap_current _ _ _ (i_deps_sorted _ (v_str _ _ I)) Hin)) as (_ & _ & V & _).
    unfold dep_due. pose proof (valid_amount_nonneg _ (wr_denom r) V). destruct (pending _); lia. }
  assert (wd_due (wr_denom r) r <= msum (wd_due (wr_denom r)) (st_wds s)).
  { apply (msum_ge1 _ _ (wr_pool r, wr_id r)); [|apply mget_In; exact G].
    intros k v Hin. destruct (i_wds _ (v_str _ _ I) _ _ (snap_current _ _ _ (i_wds_sorted _ (v_str _ _ I)) Hin)) as (_ & _ & _ & W & _). unfold wd_due. destruct (_ && _); lia. }
  unfold wd_due in H0 at 1. rewrite P, denom_eqb_refl in H0. cbn [pending andb] in H0. lia.
Qed.

Lemma finish_dep_total s r st : dr_status r = RNotExecuted -> valid_coins (dr_coins r) = true -> valid_coins (dr_accepted r) = true ->
  (forall d, amount_of (dr_accepted r) d <= amount_of (dr_coins r) d) ->
  (forall d, amount_of (dr_coins r) d - amount_of (dr_accepted r) d <= bal (st_bank s) GlobalEscrow d) -> finish_dep s r st <> None.
Proof.
  intros P V Va Le Cv. unfold finish_dep. rewrite P. destruct (coins_sub_ok _ _ Va Le) as (c & E). rewrite E. destruct (coins_sub_spec _ _ _ V Va E) as (Vc & _ & Ac).
  destruct c as [|c0 c]; [discriminate|]. unfold st_send. destruct (send_ok (st_bank s) GlobalEscrow (dr_owner r) (c0 :: c) Vc) as (b & ->); [intros d _; rewrite Ac; apply Cv|discriminate].
Qed.

Lemma one_way_two f1 t1 c1 f2 t2 c2 : f1 <> t1 -> f1 <> t2 -> f2 <> t1 -> f2 <> t2 -> one_way (bulk_queue (bulk_queue [] f1 t1 c1) f2 t2 c2).
Proof.
  intros A B C D. assert (F : Forall (fun e => (fst (fst e) = f1 \/ fst (fst e) = f2) /\ (snd (fst e) = t1 \/ snd (fst e) = t2)) (bulk_queue (bulk_queue [] f1 t1 c1) f2 t2 c2)).
  { apply (bulk_queue_ends (fun f t => (f = f1 \/ f = f2) /\ (t = t1 \/ t = t2))); [auto|]. apply (bulk_queue_ends (fun f t => (f = f1 \/ f = f2) /\ (t = t1 \/ t = t2))); [auto|constructor]. }
  rewrite Forall_forall in F. intros e e' He He'. destruct (F e He) as [[X|X] _], (F e' He') as [_ [Y|Y]]; rewrite X, Y; assumption.
Qed.

Lemma execute_dep_total (Q : ctl) s r : inv Q s -> basic_only s -> (forall d, 0 <= excess s d) -> mget (st_deps s) (dr_pool r, dr_id r) = Some r -> dr_status r = RNotExecuted ->
  execute_dep s r <> None.
Proof.
  intros I Bo Ex G P. destruct (i_deps _ (v_str _ _ I) _ _ G) as (_ & (p & Ep & _ & Inp) & V & NE & (u & U) & A). destruct (A P) as [Ac0 Mn0].
  pose proof (dep_held Q s r I G P Ex) as Held. unfold execute_dep. rewrite Ep.
  assert (Fail : forall s0, st_bank s0 = st_bank s -> finish_dep s0 r RFailed <> None).
  { intros s0 Es. apply finish_dep_total; auto; rewrite ?Ac0; [reflexivity|intros d; cbn; exact (valid_amount_nonneg _ d V)|]. intros d. rewrite Es. specialize (Held d). cbn. lia. }
  destruct (pl_disabled p) eqn:Edis; [apply Fail; reflexivity|].
  assert (Eid : pl_id p = dr_pool r) by (eapply get_pool_id; [exact (v_str _ _ I)|eassumption]).
  destruct (i_pools _ (v_str _ _ I) _ _ Ep) as (_ & _ & _ & _ & Gp & _). destruct (get_pair s (pl_pair p)) as [pr|] eqn:Epr; [|congruence]. cbn zeta.
  rewrite (basic_amm s _ p _ _ _ Bo Ep Edis). cbn [of_res].
  destruct (is_depleted (Basic (pool_rx s p pr) (pool_ry s p pr) (pool_ps s p))) eqn:Dp; [apply Fail; reflexivity|].
  cbn [is_depleted] in Dp. destruct (v_bank _ _ I) as [Nn Cs].
  apply orb_false_iff in Dp. destruct Dp as [Dp D3]. apply orb_false_iff in Dp. destruct Dp as [D1 D2]. apply Z.eqb_neq in D1. apply Z.eqb_neq in D2. apply Z.eqb_neq in D3.
  assert (Rx : 0 < pool_rx s p pr) by (pose proof (Nn (PoolReserve (pl_id p)) (pr_quote pr)); unfold pool_rx in *; lia).
  assert (Ry : 0 < pool_ry s p pr) by (pose proof (Nn (PoolReserve (pl_id p)) (pr_base pr)); unfold pool_ry in *; lia).
  assert (Ps : 0 < pool_ps s p).
  { pose proof (conserved_le _ GlobalEscrow (PoolCoin (pl_id p)) (v_bank _ _ I)). pose proof (Nn GlobalEscrow (PoolCoin (pl_id p))). unfold pool_ps in *. lia. }
  destruct (deposit_total (pool_rx s p pr) (pool_ry s p pr) (pool_ps s p) (amount_of (dr_coins r) (pr_quote pr)) (amount_of (dr_coins r) (pr_base pr)) ltac:(lia) ltac:(lia) ltac:(lia) Ps) as (ax & ay & pc & Ed).
  rewrite Ed. cbn [of_res].
  destruct (deposit_facts (pool_rx s p pr) (pool_ry s p pr) (pool_ps s p) _ _ _ _ _ ltac:(lia) ltac:(lia) ltac:(lia) Ps (valid_amount_nonneg _ _ V) (valid_amount_nonneg _ _ V) Ed) as (Bx & By & Bp & _).
  destruct (Z.eqb_spec pc 0) as [|Npc]; [apply Fail; reflexivity|].
  destruct (new_coins_one_ok (PoolCoin (pl_id p)) pc Bp) as (minting & Em). rewrite Em.
  pose proof (i_pairs _ (v_str _ _ I) _ _ Epr) as (_ & _ & Nbq & _). assert (Nqb : pr_quote pr <> pr_base pr) by congruence.
  destruct (new_coins_two (pr_quote pr) ax (pr_base pr) ay Nqb ltac:(lia) ltac:(lia)) as (acc & Ea). rewrite Ea.
  destruct (new_coins_one _ _ _ Em) as (_ & Vm & Am & _ & Eminting). destruct (Z.eqb_spec pc 0) as [|_] in Eminting; [contradiction|].
  destruct (new_coins_two_spec _ _ _ _ _ Nqb Ea) as (_ & _ & Va & Aacc).
  assert (Le : forall d, amount_of acc d <= amount_of (dr_coins r) d).
  { intros d. rewrite Aacc. destruct (denom_eqb_spec d (pr_quote pr)) as [->|]; [lia|]. destruct (denom_eqb_spec d (pr_base pr)) as [->|]; [lia|]. exact (valid_amount_nonneg _ _ V). }
  destruct (mint_one (st_bank s) (PoolCoin (pl_id p)) pc) as [Mb _]. rewrite <- Eminting in Mb.
  destruct (bulk_queue_spec [] GlobalEscrow (PoolReserve (pl_id p)) acc (Forall_nil _) Va) as (V1 & O1 & I1).
  destruct (bulk_queue_spec _ DexModule (dr_owner r) minting V1 Vm) as (V2 & O2 & I2).
  assert (Ow : one_way (bulk_queue (bulk_queue [] GlobalEscrow (PoolReserve (pl_id p)) acc) DexModule (dr_owner r) minting)) by (apply one_way_two; rewrite ?U; discriminate).
  assert (Mn : forall a d, 0 <= bal (mint (st_bank s) minting) a d).
  { intros a d. rewrite Mb. pose proof (Nn a d). destruct (_ && _); lia. }
  destruct (proj2 (bulk_run_iff _ (mint (st_bank s) minting) V2 Ow Mn)) as (b2 & Eb).
  { intros a d. rewrite O2, O1, Mb, Am. unfold q_out. cbn [map]. change (sumZ []) with 0. unfold at_acc.
    pose proof (Nn a d) as N0. destruct (addr_eqb_spec a GlobalEscrow) as [->|N1].
    - cbn [addr_eqb andb]. specialize (Le d). specialize (Held d). lia.
    - destruct (addr_eqb_spec a DexModule) as [->|N2]; cbn [andb]; [|lia]. destruct (denom_eqb d (PoolCoin (pl_id p))); lia. }
  rewrite Eb. destruct (bulk_run_spec _ _ _ Eb) as (_ & B2 & _).
  apply finish_dep_total; cbn [dr_status dr_coins dr_accepted]; auto. intros d. cbn [st_bank set_bank]. rewrite B2, O2, O1, I2, I1, Mb. unfold q_out, q_in. cbn [map]. change (sumZ []) with 0. unfold at_acc. rewrite U. cbn [addr_eqb andb].
  specialize (Held d). lia.
Qed.

Lemma finish_wd_total s r st : wr_amt r <= bal (st_bank s) GlobalEscrow (wr_denom r) \/ st <> RFailed -> 0 < wr_amt r -> finish_wd s r st <> None.
Proof.
  intros H P. unfold finish_wd. destruct (wr_status r); try discriminate. destruct st; try discriminate. destruct H as [H|H]; [|congruence].
  unfold st_send. destruct (send_ok (st_bank s) GlobalEscrow (wr_owner r) [(wr_denom r, wr_amt r)]) as (b & ->); [cbn; lia| |discriminate].
  intros d. rewrite amount_sum1. destruct (denom_eqb_spec d (wr_denom r)) as [->|]; lia.
Qed.

Lemma execute_wd_total (Q : ctl) s r : inv Q s -> basic_only s -> (forall d, 0 <= excess s d) -> pm_withdraw_fee (st_params s) <= P18 -> mget (st_wds s) (wr_pool r, wr_id r) = Some r -> wr_status r = RNotExecuted ->
  execute_wd s r <> None.
Proof.
  intros I Bo Ex Fee G P. destruct (i_wds _ (v_str _ _ I) _ _ G) as (_ & (p & Ep & _) & Ed & Pos & (u & U)).
  pose proof (wd_held Q s r I G P Ex) as Held. unfold execute_wd. rewrite Ep.
  destruct (pl_disabled p) eqn:Edis; [apply finish_wd_total; [left; exact Held|exact Pos]|].
  assert (Eid : pl_id p = wr_pool r) by (eapply get_pool_id; [exact (v_str _ _ I)|eassumption]).
  destruct (i_pools _ (v_str _ _ I) _ _ Ep) as (_ & _ & _ & _ & Gp & _). destruct (get_pair s (pl_pair p)) as [pr|] eqn:Epr; [|congruence]. cbn zeta.
  rewrite (basic_amm s _ p _ _ _ Bo Ep Edis). cbn [of_res].
  destruct (is_depleted (Basic (pool_rx s p pr) (pool_ry s p pr) (pool_ps s p))) eqn:Dp; [apply finish_wd_total; [left; exact Held|exact Pos]|].
  destruct (v_bank _ _ I) as [Nn Cs]. pose proof (conserved_le _ GlobalEscrow (PoolCoin (pl_id p)) (v_bank _ _ I)) as Cl.
  assert (Le : wr_amt r <= pool_ps s p) by (unfold pool_ps; rewrite Ed, <- Eid in Held; lia).
  destruct (withdraw_total (pool_rx s p pr) (pool_ry s p pr) (pool_ps s p) (wr_amt r) (pm_withdraw_fee (st_params s)) ltac:(lia)) as (x & y & Ew). rewrite Ew. cbn [of_res].
  destruct (v_params _ _ I) as [Vp _]. unfold valid_params in Vp. rewrite !andb_true_iff in Vp.
  assert (F0 : 0 <= pm_withdraw_fee (st_params s)) by lia.
  destruct (withdraw_facts (pool_rx s p pr) (pool_ry s p pr) (pool_ps s p) (wr_amt r) _ _ _ (Nn _ _ : 0 <= pool_rx s p pr) (Nn _ _ : 0 <= pool_ry s p pr) ltac:(lia) (conj (Z.lt_le_incl _ _ Pos) Le) (conj F0 Fee) Ew) as (Bx & By & _).
  destruct (_ && _); [apply finish_wd_total; [left; exact Held|exact Pos]|].
  pose proof (i_pairs _ (v_str _ _ I) _ _ Epr) as (_ & _ & Nbq & _). assert (Nqb : pr_quote pr <> pr_base pr) by congruence.
  destruct (new_coins_two (pr_quote pr) x (pr_base pr) y Nqb ltac:(lia) ltac:(lia)) as (w & Ea). rewrite Ea.
  destruct (new_coins_one_ok (wr_denom r) (wr_amt r) ltac:(lia)) as (bn & Em). rewrite Em.
  destruct (new_coins_one _ _ _ Em) as (_ & Vm & Am & _ & Ebn). destruct (Z.eqb_spec (wr_amt r) 0) as [|_] in Ebn; [lia|].
  destruct (new_coins_two_spec _ _ _ _ _ Nqb Ea) as (_ & _ & Va & Aw).
  destruct (bulk_queue_spec [] GlobalEscrow DexModule bn (Forall_nil _) Vm) as (V1 & O1 & I1).
  destruct (bulk_queue_spec _ (PoolReserve (pl_id p)) (wr_owner r) w V1 Va) as (V2 & O2 & I2).
  assert (Ow : one_way (bulk_queue (bulk_queue [] GlobalEscrow DexModule bn) (PoolReserve (pl_id p)) (wr_owner r) w)) by (apply one_way_two; rewrite ?U; discriminate).
  destruct (proj2 (bulk_run_iff _ (st_bank s) V2 Ow Nn)) as (b2 & Eb).
  { intros a d. rewrite O2, O1, Am, Aw. unfold q_out. cbn [map]. change (sumZ []) with 0. unfold at_acc.
    pose proof (Nn a d) as N0. destruct (addr_eqb_spec a GlobalEscrow) as [->|N1].
    - cbn [addr_eqb]. destruct (denom_eqb_spec d (wr_denom r)) as [->|]; lia.
    - destruct (addr_eqb_spec a (PoolReserve (pl_id p))) as [->|N2]; [|lia]. unfold pool_rx, pool_ry in *.
      destruct (denom_eqb_spec d (pr_quote pr)) as [->|]; [lia|]. destruct (denom_eqb_spec d (pr_base pr)) as [->|]; lia. }
  rewrite Eb. destruct (bulk_run_spec _ _ _ Eb) as (_ & B2 & _).
  assert (Bd : wr_amt r <= bal b2 DexModule (wr_denom r)).
  { rewrite B2, O2, O1, I2, I1, Am. unfold q_out, q_in. cbn [map]. change (sumZ []) with 0. unfold at_acc. rewrite U. cbn [addr_eqb]. rewrite denom_eqb_refl. pose proof (Nn DexModule (wr_denom r)). lia. }
  assert (Bu : exists b3, burn b2 bn = Some b3).
  { rewrite Ebn. unfold burn. cbn [sub_coins]. destruct (Z.ltb_spec (bal b2 DexModule (wr_denom r)) (wr_amt r)); [lia|]. eauto. }
  destruct Bu as (b3 & ->). apply finish_wd_total; cbn [wr_amt]; [right; discriminate|exact Pos].
Qed.

(** ** The request loops *)
Lemma params_batch (Q : ctl) s t : stage_of Q = STrade \/ stage_of Q = SReq -> mics Q s t -> st_params t = st_params s.
Proof.
  intros T M. induction M as [|a b c M1 M IH]; [reflexivity|]. rewrite IH. clear IH M.
  destruct M1; try reflexivity; try (exfalso; destruct T; congruence); norm_send; try reflexivity. destruct (finish_order_spec _ _ _ _ H2 H0) as (b0 & _ & ->). destruct (ko_type o); reflexivity.
Qed.
Lemma excess_mics (Q : ctl) s t d : mics Q s t -> inv Q s -> excess s d <= excess t d.
Proof. intros M. induction M as [|a b c M1 M IH]; intros I; [lia|]. specialize (IH (inv_mic _ _ _ M1 I)). pose proof (excess_mic _ _ _ d M1 (v_str _ _ I)). lia. Qed.

Lemma dep_loop_total (Q : ctl) s : stage_of Q = SReq -> inv Q s -> basic_only s -> (forall d, 0 <= excess s d) ->
  exists s', for_each (fun kv : key * dreq => execute_dep_if (snd kv)) (st_deps s) s = Some s'.
Proof.
  intros T I Bo Ex. pose proof (i_deps_sorted _ (v_str _ _ I)) as So. pose proof (msorted_NoDup _ So) as Nd.
  assert (Cur : forall k v, In (k, v) (st_deps s) -> mget (st_deps s) k = Some v) by (intros k v; apply snap_current; exact So).
  assert (X : for_each (fun kv : key * dreq => execute_dep_if (snd kv)) (st_deps s) s <> None).
  { apply for_each_total. intros l1 [k r] l2 t El Et. cbn [snd]. rewrite El in Nd.
    assert (Cur' : forall k' v, In (k', v) (l1 ++ (k, r) :: l2) -> mget (st_deps s) k' = Some v) by (intros k' v; rewrite <- El; apply Cur).
    destruct (for_each_prefix Q st_deps execute_dep_if l1 (k, r) l2 (dep_if_step Q T) Nd s t I Cur' Et) as [M C].
    pose proof (inv_mics _ _ _ M I) as It. pose proof (C k r (or_introl eq_refl)) as G. destruct (i_deps _ (v_str _ _ It) _ _ G) as (-> & _).
    unfold execute_dep_if. destruct (dr_status r) eqn:P; try discriminate.
    apply (execute_dep_total Q t r It); [exact (basic_mics Q s t M I ltac:(rewrite T; discriminate) Bo)| |exact G|exact P].
    intros d. specialize (Ex d). pose proof (excess_mics _ _ _ d M I). lia. }
  destruct (for_each _ _ _) as [s'|]; [eauto|congruence].
Qed.

Lemma wd_loop_total (Q : ctl) s : stage_of Q = SReq -> inv Q s -> basic_only s -> (forall d, 0 <= excess s d) -> pm_withdraw_fee (st_params s) <= P18 ->
  exists s', for_each (fun kv : key * wreq => execute_wd_if (snd kv)) (st_wds s) s = Some s'.
Proof.
  intros T I Bo Ex Fee. pose proof (i_wds_sorted _ (v_str _ _ I)) as So. pose proof (msorted_NoDup _ So) as Nd.
  assert (Cur : forall k v, In (k, v) (st_wds s) -> mget (st_wds s) k = Some v) by (intros k v; apply snap_current; exact So).
  assert (X : for_each (fun kv : key * wreq => execute_wd_if (snd kv)) (st_wds s) s <> None).
  { apply for_each_total. intros l1 [k r] l2 t El Et. cbn [snd]. rewrite El in Nd.
    assert (Cur' : forall k' v, In (k', v) (l1 ++ (k, r) :: l2) -> mget (st_wds s) k' = Some v) by (intros k' v; rewrite <- El; apply Cur).
    destruct (for_each_prefix Q st_wds execute_wd_if l1 (k, r) l2 (wd_if_step Q T) Nd s t I Cur' Et) as [M C].
    pose proof (inv_mics _ _ _ M I) as It. pose proof (C k r (or_introl eq_refl)) as G. destruct (i_wds _ (v_str _ _ It) _ _ G) as (-> & _).
    unfold execute_wd_if. destruct (wr_status r) eqn:P; try discriminate.
    apply (execute_wd_total Q t r It); [exact (basic_mics Q s t M I ltac:(rewrite T; discriminate) Bo)| | |exact G|exact P].
    - intros d. specialize (Ex d). pose proof (excess_mics _ _ _ d M I). lia.
    - rewrite (params_batch Q s t (or_intror T) M). exact Fee. }
  destruct (for_each _ _ _) as [s'|]; [eauto|congruence].
Qed.

(** ** The end blocker *)
Lemma end_block_total (A : params -> Prop) iter s : is_perm_iter iter -> okp A s -> (forall p, A p -> sane_ratio p) ->
  pm_tick_prec (st_params s) <= 18 -> pm_withdraw_fee (st_params s) <= P18 -> basic_only s -> bounded_supply s ->
  (forall i d, 0 <= slack s i d) -> (forall d, 0 <= excess s d) ->
  (forall i pr, get_pair s i = Some pr -> sells_above_one s i /\ has_limits (st_params s) (pr_last_price pr)) ->
  end_block iter s <> None.
Proof.
  intros Hi I HQ H18 Fee Bo Bs Sl Ex Ab. unfold end_block. destruct (_ =? 0); [|discriminate]. unfold execute_requests.
  apply (okp_st A STrade) in I. pose proof (i_pairs_sorted _ (v_str _ _ I)) as So.
  destruct (matching_loop_total (mkCtl A STrade) iter (st_pairs s) Hi HQ eq_refl s I (msorted_NoDup _ So)) as (s1 & E1 & Sl1); auto.
  { intros k pr X. apply snap_current; [exact So|exact X]. }
  { intros k pr X. apply snap_current in X; [|exact So]. pose proof (pairs_key _ _ _ _ I X) as ->. exact (Ab (pr_id pr) pr X). }
  rewrite E1. pose proof (match_stage (mkCtl A STrade) iter s s1 Hi I HQ eq_refl E1) as M1. pose proof (inv_mics _ _ _ M1 I) as I1.
  pose proof (basic_mics _ _ _ M1 I ltac:(discriminate) Bo) as Bo1. pose proof (params_batch (mkCtl A STrade) _ _ (or_introl eq_refl) M1) as P1.
  assert (Ex1 : forall d, 0 <= excess s1 d) by (intros d; specialize (Ex d); pose proof (excess_mics _ _ _ d M1 I); lia).
  apply (inv_ctl _ SReq) in I1. cbn [allowed] in I1.
  destruct (expire_loop_total (mkCtl A SReq) s1 eq_refl I1 Sl1) as (s2 & E2). rewrite E2.
  pose proof (expire_stage (mkCtl A SReq) s1 s2 (or_intror eq_refl) I1 E2) as M2. pose proof (inv_mics _ _ _ M2 I1) as I2.
  pose proof (basic_mics _ _ _ M2 I1 ltac:(discriminate) Bo1) as Bo2. pose proof (params_batch (mkCtl A SReq) _ _ (or_intror eq_refl) M2) as P2.
  assert (Ex2 : forall d, 0 <= excess s2 d) by (intros d; specialize (Ex1 d); pose proof (excess_mics _ _ _ d M2 I1); lia).
  destruct (dep_loop_total (mkCtl A SReq) s2 eq_refl I2 Bo2 Ex2) as (s3 & E3). rewrite E3.
  pose proof (dep_stage (mkCtl A SReq) s2 s3 eq_refl I2 E3) as M3. pose proof (inv_mics _ _ _ M3 I2) as I3.
  pose proof (basic_mics _ _ _ M3 I2 ltac:(discriminate) Bo2) as Bo3. pose proof (params_batch (mkCtl A SReq) _ _ (or_intror eq_refl) M3) as P3.
  assert (Ex3 : forall d, 0 <= excess s3 d) by (intros d; specialize (Ex2 d); pose proof (excess_mics _ _ _ d M3 I2); lia).
  destruct (wd_loop_total (mkCtl A SReq) s3 eq_refl I3 Bo3 Ex3 ltac:(rewrite P3, P2, P1; exact Fee)) as (s4 & E4). rewrite E4. discriminate.
Qed.

(** Pool coins with numbers that are never handed out do not exist (for the examples). *)
Lemma no_coin_low_mic Q s s' i : i <= 0 -> mic Q s s' -> str s -> supply (st_bank s) (PoolCoin i) = 0 -> supply (st_bank s') (PoolCoin i) = 0.
Proof.
  intros Hi M S X. destruct M; norm_send; try exact X; try (rewrite <- X; eapply send_supply; eassumption).
  - cbn. destruct H1 as [_ M]. rewrite M, X. unfold of_denom, denom_eqb.
    destruct (Z.eqb_spec i i0) as [->|]; [|reflexivity]. destruct (get_pool s i0) as [p|] eqn:E; [|congruence]. destruct (i_pools _ S _ _ E) as (Ek & B & _). injection Ek as ->. lia.
  - transitivity (supply b (PoolCoin i)); [destruct typ; reflexivity|]. rewrite (send_supply _ _ _ _ _ _ Es). exact X.
  - rewrite (finish_supply _ _ _ _ H2). exact X.
  - cbn in *. destruct H2 as (_ & _ & _ & _ & M). rewrite M, X. unfold of_denom, denom_eqb. destruct (Z.eqb_spec i (dr_pool r)) as [->|]; [|reflexivity].
    destruct (i_deps _ S _ _ H) as (_ & (p & G & _) & _). destruct (i_pools _ S _ _ G) as (Ek & B & _). injection Ek as Ek. lia.
  - cbn in *. destruct H2 as (_ & _ & _ & M). rewrite M, X. destruct (i_wds _ S _ _ H) as (_ & (p & G & _) & E & _). rewrite E. unfold of_denom, denom_eqb. destruct (Z.eqb_spec i (wr_pool r)) as [->|]; [|reflexivity].
    destruct (i_pools _ S _ _ G) as (Ek & B & _). injection Ek as Ek. lia.
  - rewrite delete_bank. exact X.
Qed.
Lemma no_coin_low Q c i : i <= 0 -> reach (sane Q) c -> supply (st_bank (snd c)) (PoolCoin i) = 0.
Proof.
  intros Hi. revert c. apply (reach_state Q (fun s => supply (st_bank s) (PoolCoin i) = 0)).
  - intros p b h t _ _ (_ & _ & G). apply G.
  - intros s s' (st & M) I X. exact (no_coin_low_mic _ _ _ i Hi M (v_str _ _ I) X).
Qed.
