(** What single messages do to the supply of pool coins. *)
From Verif Require Import Base Dec OrderModel MatchModel PoolModel RangeProofs KeeperModel KeeperLib KeeperSpec KeeperMicro KeeperBank KeeperSteps KeeperReqs KeeperOrders KeeperBulk KeeperTrade KeeperInv KeeperHist MatchProofs.

Definition same_supply (s s' : state) : Prop := forall d, supply (st_bank s') d = supply (st_bank s) d.
Lemma same_supply_trans a b c : same_supply a b -> same_supply b c -> same_supply a c.
Proof. intros H1 H2 d. rewrite H2. apply H1. Qed.
Lemma st_send_same s x y cs s' : st_send s x y cs = Some s' -> same_supply s s'.
Proof. intros H d. eapply st_send_supply; eassumption. Qed.
Lemma same_supply_rest s s' s2 : same_supply s s' -> st_bank s2 = st_bank s' -> same_supply s s2.
Proof. intros H E d. rewrite E. apply H. Qed.

Lemma finish_order_same s o st s' : finish_order s o st = Some s' -> same_supply s s'.
Proof. intros H d. eapply finish_supply; eassumption. Qed.
Lemma place_order_same s typ u i d od offer dd price amt l s' : str s -> place_order s typ u i d od offer dd price amt l = Some s' -> same_supply s s'.
Proof.
  intros S H. destruct (place_order_spec _ _ _ _ _ _ _ _ _ _ _ _ S H) as (pr & rp & s1 & _ & _ & _ & _ & _ & E & _ & ->).
  apply (same_supply_rest s s1); [exact (st_send_same _ _ _ _ _ E)|reflexivity].
Qed.

(** A pool creation message mints the new pool's coin to its creator. *)
Definition creates_pool (m : msg) : option Z := match m with MCreatePool u _ _ | MCreateRangedPool u _ _ _ _ _ => Some u | _ => None end.

Lemma create_pool_tail_bank s u pr kind ps dc s' : valid_params (st_params s) = true -> create_pool_tail s u pr kind ps dc = Some s' ->
  let id := st_last_pool s + 1 in let x := Z.max ps (pm_min_supply (st_params s)) in
  0 < x /\ (st_last_pool s' = id) /\ get_pool s' id = Some (mkPool id (pr_id pr) kind (User u) 0 0 false) /\
  (forall a d, bal (st_bank s') a d = bal (st_bank s) a d - at_acc a (User u) (amount_of dc d + amount_of (pm_pool_fee (st_params s)) d)
     + at_acc a (PoolReserve id) (amount_of dc d) + at_acc a (pm_fee_collector (st_params s)) (amount_of (pm_pool_fee (st_params s)) d) + at_acc a (User u) (of_denom d (PoolCoin id) x)) /\
  (forall d, supply (st_bank s') d = supply (st_bank s) d + of_denom d (PoolCoin id) x) /\
  (forall d, 0 <= amount_of dc d /\ 0 <= amount_of (pm_pool_fee (st_params s)) d /\ (0 < amount_of dc d + amount_of (pm_pool_fee (st_params s)) d -> amount_of dc d + amount_of (pm_pool_fee (st_params s)) d <= bal (st_bank s) (User u) d)).
Proof.
  intros V H id x. unfold create_pool_tail in H. inv_do. rename Heqo into E1, Heqo0 into E2, Heqo1 into E3. fold id x in H, E1, E2, E3.
  assert (M : 0 < x) by (unfold x; unfold valid_params in V; lia).
  destruct (new_coins_one _ _ _ E3) as (_ & _ & _ & _ & EC). rewrite EC in H. destruct (Z.eqb_spec x 0); [lia|].
  apply st_send_spec in E1. destruct E1 as (b1 & -> & E1). apply st_send_spec in E2. destruct E2 as (b2 & -> & E2). apply st_send_spec in H. destruct H as (b3 & -> & H).
  split; [exact M|]. split; [reflexivity|]. split; [unfold get_pool; cbn [st_pools set_bank set_plidx put_pool set_pools set_last_pool pl_id]; apply mget_mset_eq|].
  cbn [st_bank set_bank set_plidx put_pool set_pools set_last_pool] in E1, E2, H |- *. destruct (send_spec _ _ _ _ _ E1) as (A0 & (A1 & A2) & A3). destruct (send_spec _ _ _ _ _ E2) as (B0 & (B1 & B2) & B3).
  destruct (send_spec _ _ _ _ _ H) as (_ & (C1 & C2) & _). destruct (mint_one b2 (PoolCoin id) x) as [N1 N2]. split; [|split].
  - intros a d. rewrite C1, N1, B1, A1, amount_sum1. unfold at_acc, of_denom.
    destruct (addr_eqb a DexModule), (addr_eqb a (User u)), (addr_eqb a (PoolReserve id)), (addr_eqb a (pm_fee_collector (st_params s))), (denom_eqb d (PoolCoin id)); cbn [andb]; lia.
  - intros d. rewrite C2, N2, B2, A2. reflexivity.
  - intros d. pose proof (valid_amount_nonneg _ d A0). pose proof (valid_amount_nonneg _ d B0). specialize (A3 d). specialize (B3 d). rewrite A1, addr_eqb_refl in B3. cbn [addr_eqb] in B3. lia.
Qed.

Lemma create_pool_tail_of s m s' u : deliver s m = Some s' -> creates_pool m = Some u -> exists pr kind ps dc, create_pool_tail s u pr kind ps dc = Some s'.
Proof.
  intros H E. unfold deliver in H. destruct (validate_basic m); [|discriminate H]. destruct m; try discriminate E; injection E as ->; cbn [handle] in H.
  - unfold create_pool in H. inv_do. eauto.
  - unfold create_rpool in H. cbn zeta in H. inv_do. eauto.
Qed.

Lemma deliver_same (Q : ctl) s m s' : inv Q s -> deliver s m = Some s' -> creates_pool m = None -> same_supply s s'.
Proof.
  intros I H E. pose proof (v_str _ _ I) as S. unfold deliver in H. destruct (validate_basic m); [|discriminate H]. destruct m; try discriminate E; clear E; cbn [handle] in H.
  - unfold create_pair in H. inv_do. match goal with H : st_send _ _ _ _ = Some _ |- _ => apply (same_supply_rest _ _ _ (st_send_same _ _ _ _ _ H)); reflexivity end.
  - unfold deposit_msg in H. inv_do. match goal with H : st_send _ _ _ _ = Some _ |- _ => apply (same_supply_rest _ _ _ (st_send_same _ _ _ _ _ H)); reflexivity end.
  - unfold withdraw_msg in H. inv_do. match goal with H : st_send _ _ _ _ = Some _ |- _ => apply (same_supply_rest _ _ _ (st_send_same _ _ _ _ _ H)); reflexivity end.
  - eapply place_order_same; eassumption.
  - eapply place_order_same; eassumption.
  - unfold mm_order in H. cbn zeta in H. destruct (_ <=? _); [discriminate H|]. destruct (place_order _ _ _ _ _ _ _ _ _ _ _) as [s1|] eqn:E1; [|discriminate H]. injection H as <-.
    apply (same_supply_rest s s1); [eapply place_order_same; eassumption|reflexivity].
  - unfold cancel_order in H. inv_do. eapply finish_order_same; eassumption.
  - unfold cancel_all in H. destruct (existsb _ ids); [discriminate H|]. generalize dependent (map fst (st_oidx s (User u))). intros l. clear S I. revert s. induction l as [|k l IH]; intros s H; cbn in H; [injection H as <-; intros d; reflexivity|].
    destruct (cancel_one ids k s) as [s1|] eqn:E1; [|discriminate H]. refine (same_supply_trans _ s1 _ _ (IH _ H)).
    unfold cancel_one in E1. destruct (get_order _ _ _); [|discriminate E1]. destruct (_ || _); [|injection E1 as <-; intros d; reflexivity]. cbn zeta in E1. destruct (_ && _); [|injection E1 as <-; intros d; reflexivity].
    eapply finish_order_same; eassumption.
  - destruct (valid_params p); [|discriminate H]. injection H as <-. intros d; reflexivity.
  - exact (st_send_same _ _ _ _ _ H).
Qed.
