(** Settlement of deposit and withdraw requests, expiry, end of orders. *)
From Verif Require Import Base Dec OrderModel MatchModel PoolModel PoolProofs KeeperModel KeeperLib KeeperSpec KeeperMicro KeeperBank KeeperSteps KeeperReqs KeeperTrade KeeperInv KeeperHist MatchProofs.
From Coq Require Import Permutation.

(** ** One deposit request *)
Lemma finish_dep_refused Q s r s' : inv Q s -> mget (st_deps s) (dr_pool r, dr_id r) = Some r -> dr_status r = RNotExecuted ->
  finish_dep s r RFailed = Some s' -> exists r', mget (st_deps s') (dr_pool r, dr_id r) = Some r' /\ dep_refused (st_bank s) (st_bank s') r r'.
Proof.
  intros I G P H. unfold finish_dep in H. rewrite P in H. destruct (i_deps _ (v_str _ _ I) _ _ G) as (_ & _ & V & N & (u & U) & A). destruct (A P) as [A1 A2].
  rewrite A1, (coins_sub_nil _ V) in H. destruct (dr_coins r) as [|c cs] eqn:EC; [congruence|]. rewrite <- EC in *.
  replace (match dr_coins r with [] => Some s | _ :: _ => st_send s GlobalEscrow (dr_owner r) (dr_coins r) end) with (st_send s GlobalEscrow (dr_owner r) (dr_coins r)) in H by (rewrite EC; reflexivity).
  destruct (st_send _ _ _ _) as [s1|] eqn:Es; [|discriminate H]. injection H as <-. apply st_send_spec in Es. destruct Es as (b & -> & Es).
  destruct (send_spec _ _ _ _ _ Es) as (_ & (M & Ms) & _). eexists. split; [cbn [st_deps put_dep set_deps]; rewrite mget_mset; cbn [dr_pool dr_id]; rewrite key_eqb_refl; reflexivity|].
  split; [rewrite A2; reflexivity|]. split; [|exact Ms]. intros a d. cbn. rewrite M, U. unfold at_acc. destruct a; cbn; try lia.
Qed.
Theorem execute_dep_spec Q r s s' : inv Q s -> mget (st_deps s) (dr_pool r, dr_id r) = Some r -> dr_status r = RNotExecuted -> execute_dep s r = Some s' ->
  exists p pr r', get_pool s (dr_pool r) = Some p /\ get_pair s (pl_pair p) = Some pr /\ mget (st_deps s') (dr_pool r, dr_id r) = Some r' /\
    (dep_refused (st_bank s) (st_bank s') r r' \/ dep_accepted s (st_bank s') p pr r r').
Proof.
  intros I G P H. unfold execute_dep in H. destruct (get_pool s (dr_pool r)) as [p|] eqn:Ep; [|discriminate H].
  assert (Eid : pl_id p = dr_pool r) by (eapply get_pool_id; [exact (v_str _ _ I)|eassumption]).
  assert (Epr : exists pr, get_pair s (pl_pair p) = Some pr) by (destruct (i_pools _ (v_str _ _ I) _ _ Ep) as (_ & _ & _ & _ & X & _); destruct (get_pair s (pl_pair p)); [eauto|congruence]).
  destruct Epr as (pr & Epr). exists p, pr.
  assert (F : forall s0, inv Q s0 -> st_bank s0 = st_bank s -> st_deps s0 = st_deps s -> finish_dep s0 r RFailed = Some s' ->
    exists r', Some p = Some p /\ get_pair s (pl_pair p) = Some pr /\ mget (st_deps s') (dr_pool r, dr_id r) = Some r' /\ (dep_refused (st_bank s) (st_bank s') r r' \/ dep_accepted s (st_bank s') p pr r r')).
  { intros s0 I0 E1 E2 F. rewrite <- E2 in G. destruct (finish_dep_refused Q s0 r s' I0 G P F) as (r' & X & Y). rewrite E1 in Y. exists r'. auto. }
  destruct (pl_disabled p) eqn:Edis; [exact (F s I eq_refl eq_refl H)|].
  rewrite Epr in H. cbn zeta in H.
  destruct (of_res (amm_pool _ _ _ _)) as [ap|]; [|discriminate H].
  destruct (is_depleted ap).
  { refine (F _ _ _ _ H); [|reflexivity|reflexivity]. apply (inv_ctl Q SReq). refine (inv_mic (mkCtl (allowed Q) SReq) s _ _ (proj1 (inv_ctl Q SReq s) I)). apply mic_disable; [rewrite Eid; assumption|right; reflexivity]. }
  destruct (deposit _ _ _ _ _) as [[[ax ay] pc]| |] eqn:ED; [|discriminate H|discriminate H]. cbn [of_res] in H.
  destruct (pc =? 0) eqn:Epc; [exact (F s I eq_refl eq_refl H)|]. clear F.
  destruct (new_coins [(PoolCoin (pl_id p), pc)]) as [minting|] eqn:Em; [|discriminate H].
  destruct (new_coins [(pr_quote pr, ax); (pr_base pr, ay)]) as [acc|] eqn:Ea; [|discriminate H].
  destruct (bulk_run _ _) as [b2|] eqn:Eb; [|discriminate H].
  destruct (i_deps _ (v_str _ _ I) _ _ G) as (_ & _ & V & NE & (u & U) & A).
  pose proof (i_pairs _ (v_str _ _ I) _ _ Epr) as (_ & _ & Nbq & _).
  destruct (new_coins_one _ _ _ Em) as (Pc & Vm & _ & _ & Eminting). rewrite Epc in Eminting.
  assert (Nqb : pr_quote pr <> pr_base pr) by congruence.
  destruct (new_coins_two_spec _ _ _ _ _ Nqb Ea) as (_ & _ & Va & Aacc).
  apply two_sends in Eb; [|assumption|assumption|discriminate]. destruct Eb as (bm & M1 & L1 & M2 & L2).
  unfold finish_dep in H. cbn [dr_status dr_coins dr_accepted dr_owner dr_id dr_pool dr_height dr_minted] in H. rewrite P in H.
  destruct (coins_sub (dr_coins r) acc) as [refund|] eqn:Er; [|discriminate H].
  destruct (coins_sub_spec _ _ _ V Va Er) as (Vr & Lr & Ar).
  assert (R : exists b3, moved b2 b3 GlobalEscrow (dr_owner r) (amount_of refund) /\ (forall d, 0 < amount_of refund d -> amount_of refund d <= bal b2 GlobalEscrow d) /\
     s' = put_dep (set_bank s b3) (dr_with r acc pc RSucceeded)).
  { destruct refund as [|c0 refund].
    - exists b2. split; [apply moved_nil|]. split; [cbn; lia|]. injection H as <-. reflexivity.
    - destruct (st_send _ _ _ _) as [s1|] eqn:Es; [|discriminate H]. apply st_send_spec in Es. destruct Es as (b3 & -> & Es). cbn [st_bank set_bank] in Es.
      destruct (send_spec _ _ _ _ _ Es) as (_ & X1 & X2). exists b3. split; [exact X1|]. split; [exact X2|]. injection H as <-. reflexivity. }
  clear H. destruct R as (b3 & M3 & L3 & ->). exists (dr_with r acc pc RSucceeded). split; [reflexivity|]. split; [assumption|].
  split; [cbn [st_deps put_dep set_deps]; rewrite mget_mset; cbn [dr_pool dr_id dr_with]; rewrite key_eqb_refl; reflexivity|]. right.
  exists ax, ay, pc, acc. split; [assumption|]. split; [exact ED|]. split; [exact Aacc|]. split; [reflexivity|].
  pose proof (proj1 (v_bank _ _ I)) as NN. subst minting.
  destruct (mint_one (st_bank s) (PoolCoin (pl_id p)) pc) as (K1 & K2).
  destruct M1 as [M1 M1s], M2 as [M2 M2s], M3 as [M3 M3s]. rewrite U in *. cbn [st_bank put_dep set_deps set_bank].
  split; [intros d; split; [apply valid_amount_nonneg; assumption|apply Lr]|]. split; [lia|]. split; [|split].
  + intros d. specialize (L1 d). specialize (L3 d). rewrite M2, M1 in L3. rewrite K1 in L1, L3. cbn in L1, L3. rewrite Ar in L3.
    specialize (Lr d). pose proof (NN GlobalEscrow d). pose proof (valid_amount_nonneg acc d Va). pose proof (valid_amount_nonneg (dr_coins r) d V). lia.
  + intros a d. rewrite M3, M2, M1, K1, Ar, Eid, U. unfold at_acc, of_denom. cbn [amount_of].
    destruct a; cbn [addr_eqb andb]; try lia; try (destruct (n =? u)); destruct (denom_eqb d (PoolCoin (dr_pool r))); try lia;
      destruct (pool_id =? dr_pool r); lia.
  + intros d. rewrite M3s, M2s, M1s, K2, Eid. reflexivity.
Qed.

(** ** One withdraw request *)
Lemma finish_wd_refused Q s r s' : inv Q s -> mget (st_wds s) (wr_pool r, wr_id r) = Some r -> wr_status r = RNotExecuted -> wr_withdrawn r = [] ->
  finish_wd s r RFailed = Some s' -> exists r', mget (st_wds s') (wr_pool r, wr_id r) = Some r' /\ wd_refused (st_bank s) (st_bank s') r r'.
Proof.
  intros I G P W H. unfold finish_wd in H. rewrite P in H. destruct (i_wds _ (v_str _ _ I) _ _ G) as (_ & _ & D & PA & (u & U)).
  destruct (st_send _ _ _ _) as [s1|] eqn:Es; [|discriminate H]. injection H as <-. apply st_send_spec in Es. destruct Es as (b & -> & Es).
  destruct (send_spec _ _ _ _ _ Es) as (_ & (M & Ms) & _). eexists. split; [cbn [st_wds put_wd set_wds]; rewrite mget_mset; cbn [wr_pool wr_id]; rewrite key_eqb_refl; reflexivity|].
  split; [rewrite W; reflexivity|]. split; [|exact Ms]. intros a d. cbn [st_bank put_wd set_wds set_bank]. rewrite M, U, amount_sum1. unfold at_acc, of_denom. destruct a; cbn [addr_eqb]; try lia.
Qed.
Theorem execute_wd_spec Q r s s' : inv Q s -> mget (st_wds s) (wr_pool r, wr_id r) = Some r -> wr_status r = RNotExecuted -> wr_withdrawn r = [] -> execute_wd s r = Some s' ->
  exists p pr r', get_pool s (wr_pool r) = Some p /\ get_pair s (pl_pair p) = Some pr /\ mget (st_wds s') (wr_pool r, wr_id r) = Some r' /\
    (wd_refused (st_bank s) (st_bank s') r r' \/
     wd_accepted s (st_bank s') p pr r r' /\ exists p', get_pool s' (wr_pool r) = Some p' /\ pl_disabled p' = (wr_amt r =? supply (st_bank s) (PoolCoin (pl_id p)))).
Proof.
  intros I G P W H. unfold execute_wd in H. destruct (get_pool s (wr_pool r)) as [p|] eqn:Ep; [|discriminate H].
  assert (Eid : pl_id p = wr_pool r) by (eapply get_pool_id; [exact (v_str _ _ I)|eassumption]).
  assert (Epr : exists pr, get_pair s (pl_pair p) = Some pr) by (destruct (i_pools _ (v_str _ _ I) _ _ Ep) as (_ & _ & _ & _ & X & _); destruct (get_pair s (pl_pair p)); [eauto|congruence]).
  destruct Epr as (pr & Epr). exists p, pr.
  assert (F : forall s0, inv Q s0 -> st_bank s0 = st_bank s -> st_wds s0 = st_wds s -> finish_wd s0 r RFailed = Some s' ->
    exists r', Some p = Some p /\ get_pair s (pl_pair p) = Some pr /\ mget (st_wds s') (wr_pool r, wr_id r) = Some r' /\ (wd_refused (st_bank s) (st_bank s') r r' \/
     wd_accepted s (st_bank s') p pr r r' /\ exists p', get_pool s' (wr_pool r) = Some p' /\ pl_disabled p' = (wr_amt r =? supply (st_bank s) (PoolCoin (pl_id p))))).
  { intros s0 I0 E1 E2 F. rewrite <- E2 in G. destruct (finish_wd_refused Q s0 r s' I0 G P W F) as (r' & X & Y). rewrite E1 in Y. exists r'. auto. }
  destruct (pl_disabled p) eqn:Edis; [exact (F s I eq_refl eq_refl H)|].
  rewrite Epr in H. cbn zeta in H.
  destruct (of_res (amm_pool _ _ _ _)) as [ap|]; [|discriminate H].
  destruct (is_depleted ap).
  { refine (F _ _ _ _ H); [|reflexivity|reflexivity]. apply (inv_ctl Q SReq). refine (inv_mic (mkCtl (allowed Q) SReq) s _ _ (proj1 (inv_ctl Q SReq s) I)). apply mic_disable; [rewrite Eid; assumption|right; reflexivity]. }
  destruct (withdraw _ _ _ _ _) as [[x y]| |] eqn:EW; [|discriminate H|discriminate H]. cbn [of_res] in H.
  destruct ((x =? 0) && (y =? 0)) eqn:Exy; [exact (F s I eq_refl eq_refl H)|]. clear F.
  destruct (new_coins [(pr_quote pr, x); (pr_base pr, y)]) as [w|] eqn:Ew; [|discriminate H].
  destruct (new_coins [(wr_denom r, wr_amt r)]) as [burning|] eqn:Eb; [|discriminate H].
  destruct (bulk_run _ _) as [b1|] eqn:Er; [|discriminate H]. destruct (burn b1 burning) as [b2|] eqn:Ebu; [|discriminate H].
  destruct (i_wds _ (v_str _ _ I) _ _ G) as (_ & _ & D & PA & (u & U)).
  pose proof (i_pairs _ (v_str _ _ I) _ _ Epr) as (_ & _ & Nbq & _).
  destruct (new_coins_one _ _ _ Eb) as (_ & Vb & _ & _ & Eburning). destruct (Z.eqb_spec (wr_amt r) 0); [lia|].
  assert (Nqb : pr_quote pr <> pr_base pr) by congruence.
  destruct (new_coins_two_spec _ _ _ _ _ Nqb Ew) as (_ & _ & Vw & Aw).
  apply two_sends in Er; [|assumption|assumption|discriminate]. destruct Er as (bm & M1 & L1 & M2 & L2).
  subst burning. destruct (burn_one _ _ _ _ Ebu) as (K1 & K2 & _).
  assert (WS : wd_settled (st_bank s) b2 r w).
  { pose proof (proj1 (v_bank _ _ I)) as NN.
    destruct M1 as [M1 M1s], M2 as [M2 M2s]. rewrite U, Eid in *. split; [|split; [|split]].
    - intros d. split; [apply valid_amount_nonneg; assumption|]. specialize (L2 d). rewrite M1 in L2. cbn in L2. pose proof (NN (PoolReserve (wr_pool r)) d). lia.
    - specialize (L1 (wr_denom r)). cbn in L1. rewrite denom_eqb_refl in L1. lia.
    - intros a d. rewrite K1, M2, M1, U. unfold at_acc, of_denom. cbn [amount_of].
      destruct a; cbn [addr_eqb andb]; try lia; destruct (denom_eqb d (wr_denom r)); try lia.
    - intros d. rewrite K2, M2s, M1s. reflexivity. }
  exists (wr_with r w RSucceeded). split; [reflexivity|]. split; [assumption|].
  unfold finish_wd in H. cbn [wr_status] in H. rewrite P in H. fold (pool_ps s p).
  assert (Acc : forall b', b' = b2 -> wd_accepted s b' p pr r (wr_with r w RSucceeded)) by (intros ? ->; exists x, y, w; repeat (split; [assumption|]); split; [reflexivity|assumption]).
  destruct (wr_amt r =? pool_ps s p); injection H as <-.
  - split; [cbn [st_wds put_wd set_wds]; rewrite mget_mset; cbn [wr_pool wr_id wr_with]; rewrite key_eqb_refl; reflexivity|]. right. split; [apply Acc; reflexivity|].
    exists (mkPool (pl_id p) (pl_pair p) (pl_kind p) (pl_creator p) (pl_last_dep p) (pl_last_wd p) true). split; [|reflexivity].
    match goal with |- get_pool (put_wd ?a _) _ = _ => change (get_pool a (wr_pool r) = Some (mkPool (pl_id p) (pl_pair p) (pl_kind p) (pl_creator p) (pl_last_dep p) (pl_last_wd p) true)) end.
    unfold mark_disabled, get_pool, put_pool. cbn [st_pools set_pools set_bank pl_id]. rewrite mget_mset, Eid, key_eqb_refl. reflexivity.
  - split; [cbn [st_wds put_wd set_wds]; rewrite mget_mset; cbn [wr_pool wr_id wr_with]; rewrite key_eqb_refl; reflexivity|]. right. split; [apply Acc; reflexivity|].
    exists p. split; [exact Ep|assumption].
Qed.

(** ** Pending withdrawals have withdrawn nothing *)
Definition wd_blank (s : state) : Prop := forall k r, mget (st_wds s) k = Some r -> wr_status r = RNotExecuted -> wr_withdrawn r = [].
Lemma wd_blank_mic Q s s' : mic Q s s' -> str s -> wd_blank s -> wd_blank s'.
Proof.
  intros M S X. destruct M; norm_send; try exact X.
  - intros k r H5 H6'. cbn [st_wds put_wd set_wds] in H5. rewrite mget_mset in H5. destruct (key_eqb _ _); [injection H5 as <-; reflexivity|exact (X k r H5 H6')].
  - intros k r G7 G8. apply (X k r); [|assumption]. destruct typ; exact G7.
  - destruct (finish_order_spec _ _ _ _ H2 H0) as (b & _ & ->). intros k r H7 H8. apply (X k r); [|assumption]. destruct (ko_type o); exact H7.
  - intros k r' H7 H8. cbn [st_wds put_wd set_wds] in H7. rewrite mget_mset in H7. destruct (key_eqb _ _); [injection H7 as <-; discriminate H8|exact (X k r' H7 H8)].
  - intros k r' H7 H8. cbn [st_wds put_wd set_wds] in H7. rewrite mget_mset in H7. destruct (key_eqb _ _); [injection H7 as <-; discriminate H8|exact (X k r' H7 H8)].
  - destruct (delete_outdated_eq s) as (f & -> & _). intros k r H7 H8. cbn [st_wds set_wds set_oidx set_orders set_deps] in H7.
    rewrite mget_filter in H7 by (apply msorted_NoDup; apply (i_wds_sorted _ S)). destruct (mget (st_wds s) k) eqn:E; [|discriminate H7]. destruct (negb _); [|discriminate H7]. injection H7 as <-. exact (X k _ E H8).
Qed.
Lemma wd_blank_mics Q s s' : mics Q s s' -> str s -> wd_blank s -> wd_blank s'.
Proof. intros M. induction M; auto. intros S X. apply IHM; [eapply str_mic; eassumption|eapply wd_blank_mic; eassumption]. Qed.
Theorem reach_wd_blank Q c : reach (sane Q) c -> wd_blank (snd c).
Proof.
  apply reach_state; [intros p b h t _ _ _ k r H; discriminate H|]. intros s s' (st & M) I X. exact (wd_blank_mic _ _ _ M (v_str _ _ I) X).
Qed.

(** ** Cutting a pass over a snapshot at one element *)
Lemma for_each_app {A} (f : A -> state -> option state) l1 : forall l2 s s', for_each f (l1 ++ l2) s = Some s' -> exists sa, for_each f l1 s = Some sa /\ for_each f l2 sa = Some s'.
Proof. induction l1 as [|x l1 IH]; intros l2 s s' H; cbn in *; [eauto|]. destruct (f x s) as [s1|]; [|discriminate H]. exact (IH l2 s1 s' H). Qed.
Lemma for_each_prefix {V} Q (proj : state -> amap V) f l1 x l2 :
  (forall k v s s', inv Q s -> mget (proj s) k = Some v -> f v s = Some s' -> mics Q s s' /\ forall k', k' <> k -> mget (proj s') k' = mget (proj s) k') ->
  NoDup (map fst (l1 ++ x :: l2)) -> forall s sa, inv Q s -> (forall k v, In (k, v) (l1 ++ x :: l2) -> mget (proj s) k = Some v) ->
  for_each (fun kv : key * V => f (snd kv)) l1 s = Some sa -> mics Q s sa /\ forall k v, In (k, v) (x :: l2) -> mget (proj sa) k = Some v.
Proof.
  intros Hf N s sa I C H. split.
  - apply (for_each_snap Q proj f l1 Hf) with (3 := fun k v Hin => C k v (proj2 (in_app_iff _ _ _) (or_introl Hin))); auto. rewrite map_app in N. clear -N. induction (map fst l1) as [|a l IH]; [constructor|]. cbn in N. inversion N as [|? ? A B]; subst. constructor; [|auto]. intros X. apply A. apply in_app_iff. auto.
  - revert s N I C H. induction l1 as [|[k v] l1 IH]; intros s N I C H; cbn in H; [injection H as <-; intros; apply C; assumption|].
    destruct (f v s) as [s1|] eqn:E; [|discriminate H]. cbn in N. inversion N as [|? ? N1 N2]; subst. destruct (Hf k v s s1 I (C _ _ (or_introl eq_refl)) E) as [M O].
    apply (IH s1 N2 (inv_mics Q _ _ M I)); [|assumption]. intros k' v' Hin. rewrite O; [apply C; right; assumption|]. intros ->. apply N1. change k with (fst (k, v')). apply in_map. assumption.
Qed.
Lemma for_each_rest {V} Q (proj : state -> amap V) f k l2 :
  (forall k v s s', inv Q s -> mget (proj s) k = Some v -> f v s = Some s' -> mics Q s s' /\ forall k', k' <> k -> mget (proj s') k' = mget (proj s) k') ->
  NoDup (k :: map fst l2) -> forall s s', inv Q s -> (forall k v, In (k, v) l2 -> mget (proj s) k = Some v) ->
  for_each (fun kv : key * V => f (snd kv)) l2 s = Some s' -> mget (proj s') k = mget (proj s) k.
Proof.
  intros Hf. induction l2 as [|[k1 v1] l2 IH]; intros N s s' I C H; cbn in H; [injection H as <-; reflexivity|].
  destruct (f v1 s) as [s1|] eqn:E; [|discriminate H]. cbn in N. apply NoDup_cons_iff in N. destruct N as [N1 N2]. apply NoDup_cons_iff in N2. destruct N2 as [N2 N3].
  destruct (Hf k1 v1 s s1 I (C _ _ (or_introl eq_refl)) E) as [M O].
  transitivity (mget (proj s1) k); [|apply O; intros ->; apply N1; left; reflexivity].
  apply (IH) with (s := s1); auto.
  - constructor; [|assumption]. intros X. apply N1. right. assumption.
  - exact (inv_mics Q _ _ M I).
  - intros k' v' Hin. rewrite O; [apply C; right; assumption|]. intros ->. apply N2. change k1 with (fst (k1, v')). apply in_map. assumption.
Qed.

Lemma dep_if_step (Q : ctl) : stage_of Q = SReq -> forall k v s s', inv Q s -> mget (st_deps s) k = Some v -> execute_dep_if v s = Some s' ->
  mics Q s s' /\ forall k', k' <> k -> mget (st_deps s') k' = mget (st_deps s) k'.
Proof.
  intros HS k v a b Ia G F. destruct (i_deps _ (v_str _ _ Ia) _ _ G) as (-> & _). unfold execute_dep_if in F.
  destruct (dr_status v) eqn:E; [exact (execute_dep_mics Q v a b HS Ia G E F)| |]; injection F as <-; (split; [constructor|reflexivity]).
Qed.
Lemma wd_if_step (Q : ctl) : stage_of Q = SReq -> forall k v s s', inv Q s -> mget (st_wds s) k = Some v -> execute_wd_if v s = Some s' ->
  mics Q s s' /\ forall k', k' <> k -> mget (st_wds s') k' = mget (st_wds s) k'.
Proof.
  intros HS k v a b Ia G F. destruct (i_wds _ (v_str _ _ Ia) _ _ G) as (-> & _). unfold execute_wd_if in F.
  destruct (wr_status v) eqn:E; [exact (execute_wd_mics Q v a b HS Ia G E F)| |]; injection F as <-; (split; [constructor|reflexivity]).
Qed.

(** No stage before the requests touches them. *)
Lemma trade_keeps_reqs (Q : ctl) s s' : mics Q s s' -> stage_of Q = STrade -> st_deps s' = st_deps s /\ st_wds s' = st_wds s.
Proof.
  intros M T. induction M; [auto|]. destruct IHM as [E1 E2]. rewrite E1, E2. destruct (deps_mic _ _ _ H) as [->|[(X & _)|[(X & _)|(X & _)]]]; try congruence.
  destruct (wds_mic _ _ _ H) as [->|[(X & _)|[(X & _)|(X & _)]]]; try congruence. auto.
Qed.
Lemma expire_keeps_reqs l : forall s s', for_each (fun kv : key * korder => expire_order (snd kv)) l s = Some s' -> st_deps s' = st_deps s /\ st_wds s' = st_wds s /\ st_time s' = st_time s /\ st_params s' = st_params s.
Proof.
  assert (F : forall o s s', finish_order s o OExpired = Some s' -> st_deps s' = st_deps s /\ st_wds s' = st_wds s /\ st_time s' = st_time s /\ st_params s' = st_params s).
  { intros o s s' H. destruct (live o) eqn:L; [destruct (finish_order_rest _ _ _ _ H L) as (_ & _ & _ & A & B & C & D & _); auto|].
    unfold live in L. apply negb_false_iff in L. unfold finish_order in H. rewrite L in H. injection H as <-. auto. }
  induction l as [|[k o] l IH]; intros s s' H; cbn in H; [injection H as <-; auto|]. destruct (expire_order o s) as [s1|] eqn:E; [|discriminate H].
  destruct (IH _ _ H) as (-> & -> & -> & ->). unfold expire_order in E. destruct (_ && _); [eauto|]. destruct (of_res _) as [[|]|]; [eauto|injection E as <-; auto|discriminate E].
Qed.
Lemma deps_keep_wds l : forall s s', for_each (fun kv : key * dreq => execute_dep_if (snd kv)) l s = Some s' -> st_wds s' = st_wds s /\ st_time s' = st_time s /\ st_params s' = st_params s /\ st_orders s' = st_orders s.
Proof.
  assert (F : forall r st s s', finish_dep s r st = Some s' -> st_wds s' = st_wds s /\ st_time s' = st_time s /\ st_params s' = st_params s /\ st_orders s' = st_orders s).
  { intros r st s s' H. unfold finish_dep in H. destruct (dr_status r); [|injection H as <-; auto|injection H as <-; auto]. destruct (coins_sub _ _) as [[|c l']|]; [| |discriminate H].
    - injection H as <-. auto.
    - destruct (st_send _ _ _ _) as [s1|] eqn:Es; [|discriminate H]. apply st_send_spec in Es. destruct Es as (b & -> & _). injection H as <-. auto. }
  induction l as [|[k r] l IH]; intros s s' H; cbn in H; [injection H as <-; auto|]. destruct (execute_dep_if r s) as [s1|] eqn:E; [|discriminate H].
  destruct (IH _ _ H) as (-> & -> & -> & ->). unfold execute_dep_if in E. destruct (dr_status r); [|injection E as <-; auto|injection E as <-; auto]. unfold execute_dep in E.
  destruct (get_pool _ _) as [p|]; [|discriminate E]. destruct (pl_disabled p); [eauto|]. destruct (get_pair _ _); [|discriminate E]. cbn zeta in E.
  destruct (of_res _); [|discriminate E]. destruct (is_depleted _); [destruct (F _ _ _ _ E) as (-> & -> & -> & ->); auto|].
  destruct (of_res _) as [[[ax ay] pc]|]; [|discriminate E]. destruct (pc =? 0); [eauto|]. destruct (new_coins _); [|discriminate E]. destruct (new_coins _); [|discriminate E]. destruct (bulk_run _ _); [|discriminate E].
  destruct (F _ _ _ _ E) as (-> & -> & -> & ->). auto.
Qed.

(** ** The moment a request is executed *)
Section Batch.
Variable A : params -> Prop.
Variable iter : list (nat * Z) -> list (nat * Z).
Hypothesis Hi : is_perm_iter iter.
Hypothesis HA : forall p, A p -> sane_ratio p.

Lemma expired_point s s1 s2 : okp A s -> for_each (fun kv => execute_matching iter (snd kv)) (st_pairs s) s = Some s1 -> for_each (fun kv => expire_order (snd kv)) (st_orders s1) s1 = Some s2 ->
  mics (mkCtl A STrade) s s1 /\ mics (mkCtl A SReq) s1 s2 /\ okp A s1 /\ okp A s2 /\ st_deps s2 = st_deps s /\ st_wds s2 = st_wds s.
Proof.
  intros I E1 E2. pose proof (proj1 (okp_st A STrade s) I) as It. pose proof (match_stage (mkCtl A STrade) iter s s1 Hi It HA eq_refl E1) as M1.
  pose proof (proj2 (okp_st A STrade s1) (inv_mics _ _ _ M1 It)) as I1. pose proof (proj1 (okp_st A SReq s1) I1) as I1r.
  pose proof (expire_stage (mkCtl A SReq) s1 s2 (or_intror eq_refl) I1r E2) as M2.
  destruct (trade_keeps_reqs _ _ _ M1 eq_refl) as [D1 D2]. destruct (expire_keeps_reqs _ _ _ E2) as (D3 & D4 & _).
  split; [exact M1|]. split; [exact M2|]. split; [exact I1|]. split; [apply (okp_st A SReq); exact (inv_mics _ _ _ M2 I1r)|]. split; congruence.
Qed.
Lemma at_deposit_ok s k r sa : okp A s -> at_deposit iter s k r sa ->
  okp A sa /\ mget (st_deps s) k = Some r /\ mget (st_deps sa) k = Some r /\ k = (dr_pool r, dr_id r).
Proof.
  intros I (s1 & s2 & l1 & l2 & E1 & E2 & El & E3). destruct (expired_point s s1 s2 I E1 E2) as (M1 & M2 & I1 & I2 & D1 & _). pose proof (proj1 (okp_st A SReq s2) I2) as I2r.
  pose proof (i_deps_sorted _ (v_str _ _ I2r)) as Sd. pose proof (msorted_NoDup _ Sd) as Nd. rewrite El in Nd.
  assert (Cur2 : forall k' v, In (k', v) (l1 ++ (k, r) :: l2) -> mget (st_deps s2) k' = Some v) by (intros k' v'; rewrite <- El; apply snap_current; assumption).
  destruct (for_each_prefix (mkCtl A SReq) st_deps execute_dep_if l1 (k, r) l2 (dep_if_step (mkCtl A SReq) eq_refl) Nd s2 sa I2r Cur2 E3) as [M3 C3].
  split; [apply (okp_st A SReq); exact (inv_mics _ _ _ M3 I2r)|]. assert (G : mget (st_deps s2) k = Some r) by (apply Cur2; apply in_app_iff; right; left; reflexivity).
  rewrite <- D1. split; [exact G|]. split; [apply C3; left; reflexivity|]. apply (i_deps _ (v_str _ _ I2r) _ _ G).
Qed.
Lemma at_withdraw_ok s k r sa : okp A s -> at_withdraw iter s k r sa ->
  okp A sa /\ mget (st_wds s) k = Some r /\ mget (st_wds sa) k = Some r /\ k = (wr_pool r, wr_id r).
Proof.
  intros I (s1 & s2 & s3 & l1 & l2 & E1 & E2 & E3 & El & E4). destruct (expired_point s s1 s2 I E1 E2) as (M1 & M2 & I1 & I2 & _ & D2). pose proof (proj1 (okp_st A SReq s2) I2) as I2r.
  pose proof (dep_stage (mkCtl A SReq) s2 s3 eq_refl I2r E3) as M3. pose proof (inv_mics _ _ _ M3 I2r) as I3r. destruct (deps_keep_wds _ _ _ E3) as (D3 & _).
  pose proof (i_wds_sorted _ (v_str _ _ I3r)) as Sd. pose proof (msorted_NoDup _ Sd) as Nd. rewrite El in Nd.
  assert (Cur2 : forall k' v, In (k', v) (l1 ++ (k, r) :: l2) -> mget (st_wds s3) k' = Some v) by (intros k' v'; rewrite <- El; apply snap_current; assumption).
  destruct (for_each_prefix (mkCtl A SReq) st_wds execute_wd_if l1 (k, r) l2 (wd_if_step (mkCtl A SReq) eq_refl) Nd s3 sa I3r Cur2 E4) as [M4 C4].
  split; [apply (okp_st A SReq); exact (inv_mics _ _ _ M4 I3r)|]. assert (G : mget (st_wds s3) k = Some r) by (apply Cur2; apply in_app_iff; right; left; reflexivity).
  rewrite <- D2, <- D3. split; [exact G|]. split; [apply C4; left; reflexivity|]. apply (i_wds _ (v_str _ _ I3r) _ _ G).
Qed.

(** Every stored request reaches its moment, and nothing later touches it. *)
Theorem deposit_happens s s' k r : okp A s -> execute_requests iter s = Some s' -> mget (st_deps s) k = Some r ->
  exists sa sb, at_deposit iter s k r sa /\ execute_dep_if r sa = Some sb /\ mget (st_deps s') k = mget (st_deps sb) k.
Proof.
  intros I H G. unfold execute_requests in H. destruct (for_each _ (st_pairs s) s) as [s1|] eqn:E1; [|discriminate H]. destruct (for_each _ (st_orders s1) s1) as [s2|] eqn:E2; [|discriminate H].
  destruct (for_each _ (st_deps s2) s2) as [s3|] eqn:E3; [|discriminate H]. destruct (expired_point s s1 s2 I E1 E2) as (M1 & M2 & I1 & I2 & D1 & _). pose proof (proj1 (okp_st A SReq s2) I2) as I2r.
  rewrite <- D1 in G. destruct (in_split _ _ (mget_In _ _ _ G)) as (l1 & l2 & El).
  pose proof (i_deps_sorted _ (v_str _ _ I2r)) as Sd. pose proof (msorted_NoDup _ Sd) as Nd. rewrite El in Nd.
  assert (Cur2 : forall k' v, In (k', v) (l1 ++ (k, r) :: l2) -> mget (st_deps s2) k' = Some v) by (intros k' v'; rewrite <- El; apply snap_current; assumption).
  pose proof E3 as E3'. rewrite El in E3'. destruct (for_each_app _ _ _ _ _ E3') as (sa & Ea & Eb). cbn [for_each snd] in Eb. destruct (execute_dep_if r sa) as [sb|] eqn:Ex; [|discriminate Eb].
  exists sa, sb. split; [exists s1, s2, l1, l2; auto|]. split; [assumption|].
  destruct (for_each_prefix (mkCtl A SReq) st_deps execute_dep_if l1 (k, r) l2 (dep_if_step (mkCtl A SReq) eq_refl) Nd s2 sa I2r Cur2 Ea) as [M3 C3].
  pose proof (inv_mics _ _ _ M3 I2r) as Ia. destruct (dep_if_step (mkCtl A SReq) eq_refl k r sa sb Ia (C3 _ _ (or_introl eq_refl)) Ex) as [M4 O4].
  rewrite map_app in Nd. cbn [map fst] in Nd. apply NoDup_remove in Nd as Nd'. destruct Nd' as [_ Nk]. assert (Nk2 : NoDup (k :: map fst l2)).
  { clear -Nd. induction (map fst l1) as [|a l IH]; [exact Nd|]. cbn in Nd. inversion Nd; auto. }
  assert (X : mget (st_deps s3) k = mget (st_deps sb) k).
  { apply (for_each_rest (mkCtl A SReq) st_deps execute_dep_if k l2 (dep_if_step (mkCtl A SReq) eq_refl) Nk2 sb s3 (inv_mics _ _ _ M4 Ia)); [|exact Eb].
    intros k' v' Hin. rewrite O4; [apply C3; right; assumption|]. intros ->. apply NoDup_cons_iff in Nk2. destruct Nk2 as [Nk2 _]. apply Nk2. change k with (fst (k, v')). apply in_map. assumption. }
  rewrite <- X. clear -H. revert s3 s' H.
  assert (F : forall st s r s', finish_wd s r st = Some s' -> st_deps s' = st_deps s).
  { intros st s r s' H. unfold finish_wd in H. destruct (wr_status r); [|injection H as <-; auto|injection H as <-; auto]. destruct st.
    - injection H as <-. reflexivity.
    - injection H as <-. reflexivity.
    - destruct (st_send _ _ _ _) as [s1|] eqn:Es; [|discriminate H]. apply st_send_spec in Es. destruct Es as (b & -> & _). injection H as <-. auto. }
  assert (G : forall l s s', for_each (fun kv : key * wreq => execute_wd_if (snd kv)) l s = Some s' -> st_deps s' = st_deps s).
  { induction l as [|[k0 r] l IH]; intros s s' H; cbn in H; [injection H as <-; auto|]. destruct (execute_wd_if r s) as [s1|] eqn:E; [|discriminate H].
    rewrite (IH _ _ H). unfold execute_wd_if in E. destruct (wr_status r); [|injection E as <-; auto|injection E as <-; auto]. unfold execute_wd in E.
    destruct (get_pool _ _) as [p|]; [|discriminate E]. destruct (pl_disabled p); [eauto|]. destruct (get_pair _ _); [|discriminate E]. cbn zeta in E.
    destruct (of_res _); [|discriminate E]. destruct (is_depleted _); [rewrite (F _ _ _ _ E); reflexivity|].
    destruct (of_res _) as [[x y]|]; [|discriminate E]. destruct (_ && _); [eauto|]. destruct (new_coins _); [|discriminate E]. destruct (new_coins _); [|discriminate E]. destruct (bulk_run _ _); [|discriminate E].
    destruct (burn _ _); [|discriminate E]. rewrite (F _ _ _ _ E). destruct (_ =? _); reflexivity. }
  intros s3 s' H. rewrite (G _ _ _ H). reflexivity.
Qed.
Theorem withdraw_happens s s' k r : okp A s -> execute_requests iter s = Some s' -> mget (st_wds s) k = Some r ->
  exists sa sb, at_withdraw iter s k r sa /\ execute_wd_if r sa = Some sb /\ mget (st_wds s') k = mget (st_wds sb) k.
Proof.
  intros I H G. unfold execute_requests in H. destruct (for_each _ (st_pairs s) s) as [s1|] eqn:E1; [|discriminate H]. destruct (for_each _ (st_orders s1) s1) as [s2|] eqn:E2; [|discriminate H].
  destruct (for_each _ (st_deps s2) s2) as [s3|] eqn:E3; [|discriminate H]. destruct (expired_point s s1 s2 I E1 E2) as (M1 & M2 & I1 & I2 & _ & D2). pose proof (proj1 (okp_st A SReq s2) I2) as I2r.
  pose proof (dep_stage (mkCtl A SReq) s2 s3 eq_refl I2r E3) as M3. pose proof (inv_mics _ _ _ M3 I2r) as I3r. destruct (deps_keep_wds _ _ _ E3) as (D3 & _).
  rewrite <- D2, <- D3 in G. destruct (in_split _ _ (mget_In _ _ _ G)) as (l1 & l2 & El).
  pose proof (i_wds_sorted _ (v_str _ _ I3r)) as Sd. pose proof (msorted_NoDup _ Sd) as Nd. rewrite El in Nd.
  assert (Cur2 : forall k' v, In (k', v) (l1 ++ (k, r) :: l2) -> mget (st_wds s3) k' = Some v) by (intros k' v'; rewrite <- El; apply snap_current; assumption).
  pose proof H as E3'. rewrite El in E3'. destruct (for_each_app _ _ _ _ _ E3') as (sa & Ea & Eb). cbn [for_each snd] in Eb. destruct (execute_wd_if r sa) as [sb|] eqn:Ex; [|discriminate Eb].
  exists sa, sb. split; [exists s1, s2, s3, l1, l2; auto 10|]. split; [assumption|].
  destruct (for_each_prefix (mkCtl A SReq) st_wds execute_wd_if l1 (k, r) l2 (wd_if_step (mkCtl A SReq) eq_refl) Nd s3 sa I3r Cur2 Ea) as [M4 C4].
  pose proof (inv_mics _ _ _ M4 I3r) as Ia. destruct (wd_if_step (mkCtl A SReq) eq_refl k r sa sb Ia (C4 _ _ (or_introl eq_refl)) Ex) as [M5 O5].
  rewrite map_app in Nd. cbn [map fst] in Nd. assert (Nk2 : NoDup (k :: map fst l2)).
  { clear -Nd. induction (map fst l1) as [|a l IH]; [exact Nd|]. cbn in Nd. inversion Nd; auto. }
  apply (for_each_rest (mkCtl A SReq) st_wds execute_wd_if k l2 (wd_if_step (mkCtl A SReq) eq_refl) Nk2 sb s' (inv_mics _ _ _ M5 Ia)); [|exact Eb].
  intros k' v' Hin. rewrite O5; [apply C4; right; assumption|]. intros ->. apply NoDup_cons_iff in Nk2. destruct Nk2 as [Nk2 _]. apply Nk2. change k with (fst (k, v')). apply in_map. assumption.
Qed.
End Batch.
