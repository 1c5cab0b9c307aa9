(** Deposits, withdrawals and expiry in the end blocker are sequences of elementary steps. *)
From Verif Require Import Base Dec OrderModel MatchModel PoolModel PoolProofs KeeperModel KeeperLib KeeperSpec KeeperMicro KeeperBank KeeperSteps MatchProofs.

(** ** Coins.Sub *)
Lemma amount_of_In b d : has_denom b d = true -> In (d, amount_of b d) b.
Proof.
  induction b as [|[e x] b IH]; intros H; [discriminate H|]. unfold has_denom in *. cbn in *. destruct (denom_eqb_spec d e) as [->|N]; [left; reflexivity|right; auto].
Qed.
Lemma has_denom_sub a b d (g : denom * Z -> bool) : has_denom a d = false -> has_denom (filter g (map (fun c => (fst c, snd c - amount_of b (fst c))) a)) d = false.
Proof.
  intros H. unfold has_denom in *. induction a as [|[e x] a IH]; [reflexivity|]. cbn in H. apply orb_false_iff in H. destruct H as [H1 H2].
  cbn. destruct (g _); cbn; [rewrite H1|]; auto.
Qed.
Lemma coins_sub_spec a b c : valid_coins a = true -> valid_coins b = true -> coins_sub a b = Some c ->
  valid_coins c = true /\ (forall d, amount_of b d <= amount_of a d) /\ forall d, amount_of c d = amount_of a d - amount_of b d.
Proof.
  intros Va Vb H. unfold coins_sub in H. destruct (existsb _ b) eqn:E; [discriminate H|]. injection H as <-.
  assert (L : forall d, amount_of b d <= amount_of a d).
  { intros d. destruct (has_denom b d) eqn:Hd; [|rewrite (amount_of_notin _ _ Hd); apply valid_amount_nonneg; assumption].
    apply amount_of_In in Hd. destruct (Z_le_gt_dec (amount_of b d) (amount_of a d)) as [|G]; [assumption|exfalso].
    rewrite (proj2 (existsb_exists _ _)) in E; [discriminate E|]. exists (d, amount_of b d). split; [assumption|]. cbn. lia. }
  split; [|split; [exact L|]].
  - clear E. assert (La : forall d x, In (d, x) a -> amount_of b d <= x).
    { clear -L Va. induction a as [|[e y] a IH]; intros d x H; [destruct H|]. destruct (valid_coins_cons _ _ _ Va) as (A1 & A2 & A3). destruct H as [H|H].
      - injection H as -> ->. specialize (L d). cbn in L. rewrite denom_eqb_refl in L. assumption.
      - assert (has_denom a d = true) by (apply has_denom_In; eauto). assert (N : denom_eqb d e = false) by (destruct (denom_eqb_spec d e); congruence).
        clear IH. specialize (L d). cbn in L. rewrite N in L. clear N. revert A3 H L. clear. induction a as [|[f z] a IH]; intros A3 H L; [destruct H|].
        destruct (valid_coins_cons _ _ _ A3) as (B1 & B2 & B3). cbn in L. destruct H as [H|H].
        + injection H as -> ->. rewrite denom_eqb_refl in L. assumption.
        + assert (has_denom a d = true) by (apply has_denom_In; eauto). assert (N : denom_eqb d f = false) by (destruct (denom_eqb_spec d f); congruence).
          rewrite N in L. auto. }
    clear L. induction a as [|[e y] a IH]; [reflexivity|]. destruct (valid_coins_cons _ _ _ Va) as (A1 & A2 & A3). cbn [map filter fst snd].
    specialize (IH A3 (fun d x Hx => La d x (or_intror Hx))). pose proof (La _ _ (or_introl eq_refl)). destruct (Z.eqb_spec (y - amount_of b e) 0); cbn [negb]; [assumption|].
    cbn [valid_coins]. rewrite IH, (has_denom_sub a b e _ A2). destruct (Z.ltb_spec 0 (y - amount_of b e)); [reflexivity|lia].
  - intros d. assert (G : amount_of (filter (fun c => negb (snd c =? 0)) (map (fun c => (fst c, snd c - amount_of b (fst c))) a)) d = if has_denom a d then amount_of a d - amount_of b d else 0).
    { clear E L. induction a as [|[e y] a IH]; [reflexivity|]. destruct (valid_coins_cons _ _ _ Va) as (A1 & A2 & A3). specialize (IH A3). cbn [map filter fst snd]. unfold has_denom in *. cbn [existsb fst amount_of].
      destruct (denom_eqb_spec d e) as [->|N].
      - cbn [orb]. destruct (Z.eqb_spec (y - amount_of b e) 0); cbn [negb].
        + rewrite IH. rewrite A2. lia.
        + cbn. rewrite denom_eqb_refl. reflexivity.
      - cbn [orb]. destruct (Z.eqb_spec (y - amount_of b e) 0); cbn [negb]; [assumption|]. cbn. destruct (denom_eqb_spec d e); [congruence|assumption]. }
    rewrite G. destruct (has_denom a d) eqn:Hd; [reflexivity|]. specialize (L d). rewrite (amount_of_notin _ _ Hd) in *. pose proof (valid_amount_nonneg b d Vb). lia.
Qed.
Lemma coins_sub_nil a : valid_coins a = true -> coins_sub a [] = Some a.
Proof.
  intros V. unfold coins_sub. cbn [existsb]. f_equal. induction a as [|[e x] a IH]; [reflexivity|]. destruct (valid_coins_cons _ _ _ V) as (A1 & A2 & A3).
  cbn. rewrite Z.sub_0_r. destruct (Z.eqb_spec x 0); [lia|]. cbn. f_equal. apply IH. assumption.
Qed.

(** A transfer of a possibly empty list of coins. *)
Lemma bulk_queue_nil f t cs : valid_coins cs = true -> bulk_queue [] f t cs = match cs with [] => [] | _ => [(f, t, cs)] end.
Proof. intros V. unfold bulk_queue. rewrite V. destruct cs; reflexivity. Qed.
Lemma moved_nil b f t : moved b b f t (amount_of []).
Proof. split; intros; cbn; [destruct (addr_eqb _ f), (addr_eqb _ t)|]; lia. Qed.
Lemma two_sends b f1 t1 c1 f2 t2 c2 b' : valid_coins c1 = true -> valid_coins c2 = true -> f1 <> f2 ->
  bulk_run b (bulk_queue (bulk_queue [] f1 t1 c1) f2 t2 c2) = Some b' ->
  exists b1, moved b b1 f1 t1 (amount_of c1) /\ (forall d, 0 < amount_of c1 d -> amount_of c1 d <= bal b f1 d) /\
             moved b1 b' f2 t2 (amount_of c2) /\ (forall d, 0 < amount_of c2 d -> amount_of c2 d <= bal b1 f2 d).
Proof.
  intros V1 V2 N H. rewrite (bulk_queue_nil f1 t1 c1 V1) in H. unfold bulk_queue in H. rewrite V2 in H.
  assert (F : addr_eqb f1 f2 = false) by (destruct (addr_eqb_spec f1 f2); congruence).
  destruct c1 as [|x1 c1], c2 as [|x2 c2]; cbn [andb negb bulk_merge bulk_run] in H; rewrite ?F in H; cbn [andb bulk_run] in H; inv_do.
  - exists b'. split; [apply moved_nil|]. split; [cbn; lia|]. split; [apply moved_nil|cbn; lia].
  - match goal with H : send _ _ _ _ = Some _ |- _ => apply send_spec in H; destruct H as (_ & H1 & H2) end.
    exists b. split; [apply moved_nil|]. split; [cbn; lia|]. split; assumption.
  - match goal with H : send _ _ _ _ = Some _ |- _ => apply send_spec in H; destruct H as (_ & H1 & H2) end.
    exists b'. split; [assumption|]. split; [assumption|]. split; [apply moved_nil|cbn; lia].
  - repeat match goal with H : send _ _ _ _ = Some _ |- _ => apply send_spec in H; destruct H as (_ & ? & ?) end.
    eexists. split; [eassumption|]. split; [assumption|]. split; assumption.
Qed.

(** ** Iteration over a snapshot *)
Lemma for_each_snap {V} Q (proj : state -> amap V) f l :
  (forall k v s s', inv Q s -> mget (proj s) k = Some v -> f v s = Some s' ->
     mics Q s s' /\ forall k', k' <> k -> mget (proj s') k' = mget (proj s) k') ->
  NoDup (map fst l) -> forall s s', inv Q s -> (forall k v, In (k, v) l -> mget (proj s) k = Some v) ->
  for_each (fun kv : key * V => f (snd kv)) l s = Some s' -> mics Q s s'.
Proof.
  intros Hf. induction l as [|[k v] l IH]; intros N s s' I C H; cbn in H; [injection H as <-; constructor|].
  destruct (f v s) as [s1|] eqn:E; [|discriminate H]. inversion N as [|? ? N1 N2]; subst.
  destruct (Hf k v s s1 I (C _ _ (or_introl eq_refl)) E) as [M O]. eapply mics_trans; [exact M|].
  apply (IH N2 s1 s' (inv_mics Q _ _ M I)); [|assumption]. intros k' v' Hin. rewrite O; [apply C; right; assumption|].
  intros ->. apply N1. change k with (fst (k, v')). apply in_map. assumption.
Qed.
Lemma snap_current {V} (m : amap V) k v : msorted m -> In (k, v) m -> mget m k = Some v.
Proof. intros S. apply In_mget. apply msorted_NoDup. assumption. Qed.

Lemma finish_order_orders s o st s' : finish_order s o st = Some s' -> forall k, k <> (ko_pair o, ko_id o) -> mget (st_orders s') k = mget (st_orders s) k.
Proof.
  intros H k N. destruct (live o) eqn:L.
  - destruct (finish_order_spec _ _ _ _ H L) as (b & _ & ->). destruct (ko_type o); cbn; apply mget_mset_neq; assumption.
  - unfold live in L. apply negb_false_iff in L. unfold finish_order in H. rewrite L in H. injection H as <-. reflexivity.
Qed.
Lemma expire_mics (Q : ctl) o k s s' : batching Q -> inv Q s -> mget (st_orders s) k = Some o -> expire_order o s = Some s' ->
  mics Q s s' /\ forall k', k' <> k -> mget (st_orders s') k' = mget (st_orders s) k'.
Proof.
  intros HS I G H. destruct (i_orders _ (v_str _ _ I) _ _ G) as (-> & _). unfold expire_order in H.
  assert (F : finish_order s o OExpired = Some s' -> mics Q s s' /\ forall k', k' <> (ko_pair o, ko_id o) -> mget (st_orders s') k' = mget (st_orders s) k').
  { intros X. split; [exact (finish_order_mics Q s o OExpired s' (ends_batch Q OExpired HS ltac:(discriminate)) G eq_refl X)|exact (finish_order_orders _ _ _ _ X)]. }
  destruct (_ && _); [auto|]. destruct (of_res _) as [sm|]; [|discriminate H]. destruct sm; [auto|]. injection H as <-. split; [constructor|reflexivity].
Qed.

(** ** Deposits *)
Lemma finish_dep_failed (Q : ctl) s r s' : stage_of Q = SReq -> inv Q s -> mget (st_deps s) (dr_pool r, dr_id r) = Some r -> dr_status r = RNotExecuted ->
  finish_dep s r RFailed = Some s' -> mics Q s s' /\ forall k, k <> (dr_pool r, dr_id r) -> mget (st_deps s') k = mget (st_deps s) k.
Proof.
  intros HS I G P H. unfold finish_dep in H. rewrite P in H. destruct (i_deps _ (v_str _ _ I) _ _ G) as (_ & _ & V & N & _ & A). destruct (A P) as [A1 A2].
  rewrite A1, (coins_sub_nil _ V) in H. destruct (dr_coins r) as [|c cs] eqn:EC; [congruence|]. rewrite <- EC in *.
  replace (match dr_coins r with [] => Some s | _ :: _ => st_send s GlobalEscrow (dr_owner r) (dr_coins r) end) with (st_send s GlobalEscrow (dr_owner r) (dr_coins r)) in H by (rewrite EC; reflexivity).
  destruct (st_send _ _ _ _) as [s1|] eqn:Es; [|discriminate H]. injection H as <-. split.
  - apply mics_one. exact (mic_dep_fail Q s r s1 G P Es HS).
  - intros k Nk. apply st_send_spec in Es. destruct Es as (b & -> & _). cbn. apply mget_mset_neq. assumption.
Qed.

Lemma execute_dep_mics (Q : ctl) r s s' : stage_of Q = SReq -> inv Q s -> mget (st_deps s) (dr_pool r, dr_id r) = Some r -> dr_status r = RNotExecuted ->
  execute_dep s r = Some s' -> mics Q s s' /\ forall k, k <> (dr_pool r, dr_id r) -> mget (st_deps s') k = mget (st_deps s) k.
Proof.
  intros HS I G P H. unfold execute_dep in H. destruct (get_pool s (dr_pool r)) as [p|] eqn:Ep; [|discriminate H].
  assert (Eid : pl_id p = dr_pool r) by (eapply get_pool_id; [exact (v_str _ _ I)|eassumption]).
  destruct (pl_disabled p) eqn:Edis; [exact (finish_dep_failed Q s r s' HS I G P H)|].
  destruct (get_pair s (pl_pair p)) as [pr|] eqn:Epr; [|discriminate H]. cbn zeta in H.
  destruct (of_res (amm_pool _ _ _ _)) as [ap|]; [|discriminate H].
  destruct (is_depleted ap).
  { assert (M : mic Q s (mark_disabled s p)) by (apply mic_disable; [rewrite Eid; assumption|right; exact HS]).
    destruct (finish_dep_failed Q (mark_disabled s p) r s' HS (inv_mic Q _ _ M I) G P H) as [M2 O]. split; [econstructor; eassumption|exact O]. }
  destruct (of_res (deposit _ _ _ _ _)) as [[[ax ay] pc]|]; [|discriminate H].
  destruct (pc =? 0) eqn:Epc; [exact (finish_dep_failed Q s r s' HS I G P H)|].
  destruct (new_coins [(PoolCoin (pl_id p), pc)]) as [minting|] eqn:Em; [|discriminate H].
  destruct (new_coins [(pr_quote pr, ax); (pr_base pr, ay)]) as [acc|] eqn:Ea; [|discriminate H].
  destruct (bulk_run _ _) as [b2|] eqn:Eb; [|discriminate H].
  destruct (i_deps _ (v_str _ _ I) _ _ G) as (_ & _ & V & NE & (u & U) & A).
  pose proof (i_pairs _ (v_str _ _ I) _ _ Epr) as (_ & _ & Nbq & _).
  destruct (new_coins_one _ _ _ Em) as (Pc & Vm & _ & _ & Eminting). rewrite Epc in Eminting.
  assert (Nqb : pr_quote pr <> pr_base pr) by congruence.
  destruct (new_coins_two_spec _ _ _ _ _ Nqb Ea) as (_ & _ & Va & Aacc).
  apply two_sends in Eb; [|assumption|assumption|discriminate]. destruct Eb as (bm & M1 & L1 & M2 & L2).
  unfold finish_dep in H. cbn [dr_status dr_coins dr_accepted dr_owner dr_id dr_pool dr_height dr_minted] in H. rewrite P in H.
  destruct (coins_sub (dr_coins r) acc) as [refund|] eqn:Er; [|discriminate H].
  destruct (coins_sub_spec _ _ _ V Va Er) as (Vr & Lr & Ar).
  assert (R : exists b3, moved b2 b3 GlobalEscrow (dr_owner r) (amount_of refund) /\ (forall d, 0 < amount_of refund d -> amount_of refund d <= bal b2 GlobalEscrow d) /\
     s' = put_dep (set_bank s b3) (dr_with r acc pc RSucceeded)).
  { destruct refund as [|c0 refund].
    - exists b2. split; [apply moved_nil|]. split; [cbn; lia|]. injection H as <-. reflexivity.
    - destruct (st_send _ _ _ _) as [s1|] eqn:Es; [|discriminate H]. apply st_send_spec in Es. destruct Es as (b3 & -> & Es). cbn [st_bank set_bank] in Es.
      destruct (send_spec _ _ _ _ _ Es) as (_ & X1 & X2). exists b3. split; [exact X1|]. split; [exact X2|]. injection H as <-. reflexivity. }
  clear H. destruct R as (b3 & M3 & L3 & ->). split.
  - apply mics_one. apply (mic_dep_ok Q s r acc pc b3 G P Va); [|exact HS].
    pose proof (proj1 (v_bank _ _ I)) as NN. subst minting.
    destruct (mint_one (st_bank s) (PoolCoin (pl_id p)) pc) as (K1 & K2).
    destruct M1 as [M1 M1s], M2 as [M2 M2s], M3 as [M3 M3s]. rewrite U in *.
    split; [intros d; split; [apply valid_amount_nonneg; assumption|apply Lr]|]. split; [lia|]. split; [|split].
    + intros d. specialize (L1 d). specialize (L3 d). rewrite M2, M1 in L3. rewrite K1 in L1, L3. cbn in L1, L3. rewrite Ar in L3.
      specialize (Lr d). pose proof (NN GlobalEscrow d). pose proof (valid_amount_nonneg acc d Va). pose proof (valid_amount_nonneg (dr_coins r) d V). lia.
    + intros a d. rewrite M3, M2, M1, K1, Ar, Eid, U. unfold at_acc, of_denom. cbn [amount_of].
      destruct a; cbn [addr_eqb andb]; try lia; try (destruct (n =? u)); destruct (denom_eqb d (PoolCoin (dr_pool r))); try lia;
        destruct (pool_id =? dr_pool r); lia.
    + intros d. rewrite M3s, M2s, M1s, K2, Eid. reflexivity.
  - intros k Nk. cbn. apply mget_mset_neq. assumption.
Qed.

(** ** Withdrawals *)
Lemma finish_wd_failed (Q : ctl) s r s' : stage_of Q = SReq -> mget (st_wds s) (wr_pool r, wr_id r) = Some r -> wr_status r = RNotExecuted ->
  finish_wd s r RFailed = Some s' -> mics Q s s' /\ forall k, k <> (wr_pool r, wr_id r) -> mget (st_wds s') k = mget (st_wds s) k.
Proof.
  intros HS G P H. unfold finish_wd in H. rewrite P in H. destruct (st_send _ _ _ _) as [s1|] eqn:Es; [|discriminate H]. injection H as <-. split.
  - apply mics_one. exact (mic_wd_fail Q s r s1 G P Es HS).
  - intros k Nk. apply st_send_spec in Es. destruct Es as (b & -> & _). cbn. apply mget_mset_neq. assumption.
Qed.

Lemma execute_wd_mics (Q : ctl) r s s' : stage_of Q = SReq -> inv Q s -> mget (st_wds s) (wr_pool r, wr_id r) = Some r -> wr_status r = RNotExecuted ->
  execute_wd s r = Some s' -> mics Q s s' /\ forall k, k <> (wr_pool r, wr_id r) -> mget (st_wds s') k = mget (st_wds s) k.
Proof.
  intros HS I G P H. unfold execute_wd in H. destruct (get_pool s (wr_pool r)) as [p|] eqn:Ep; [|discriminate H].
  assert (Eid : pl_id p = wr_pool r) by (eapply get_pool_id; [exact (v_str _ _ I)|eassumption]).
  destruct (pl_disabled p) eqn:Edis; [exact (finish_wd_failed Q s r s' HS G P H)|].
  destruct (get_pair s (pl_pair p)) as [pr|] eqn:Epr; [|discriminate H]. cbn zeta in H.
  destruct (of_res (amm_pool _ _ _ _)) as [ap|]; [|discriminate H].
  destruct (is_depleted ap).
  { assert (M : mic Q s (mark_disabled s p)) by (apply mic_disable; [rewrite Eid; assumption|right; exact HS]).
    destruct (finish_wd_failed Q (mark_disabled s p) r s' HS G P H) as [M2 O]. split; [econstructor; eassumption|exact O]. }
  destruct (of_res (withdraw _ _ _ _ _)) as [[x y]|]; [|discriminate H].
  destruct ((x =? 0) && (y =? 0)) eqn:Exy; [exact (finish_wd_failed Q s r s' HS G P H)|].
  destruct (new_coins [(pr_quote pr, x); (pr_base pr, y)]) as [w|] eqn:Ew; [|discriminate H].
  destruct (new_coins [(wr_denom r, wr_amt r)]) as [burning|] eqn:Eb; [|discriminate H].
  destruct (bulk_run _ _) as [b1|] eqn:Er; [|discriminate H]. destruct (burn b1 burning) as [b2|] eqn:Ebu; [|discriminate H].
  destruct (i_wds _ (v_str _ _ I) _ _ G) as (_ & _ & D & PA & (u & U)).
  pose proof (i_pairs _ (v_str _ _ I) _ _ Epr) as (_ & _ & Nbq & _).
  destruct (new_coins_one _ _ _ Eb) as (_ & Vb & _ & _ & Eburning). destruct (Z.eqb_spec (wr_amt r) 0); [lia|].
  assert (Nqb : pr_quote pr <> pr_base pr) by congruence.
  destruct (new_coins_two_spec _ _ _ _ _ Nqb Ew) as (_ & _ & Vw & Aw).
  apply two_sends in Er; [|assumption|assumption|discriminate]. destruct Er as (bm & M1 & L1 & M2 & L2).
  subst burning. destruct (burn_one _ _ _ _ Ebu) as (K1 & K2 & _).
  assert (MW : mic Q s (put_wd (set_bank s b2) (wr_with r w RSucceeded))).
  { apply (mic_wd_ok Q s r w b2 G P (conj Vw (new_coins_length _ _ Ew))); [|exact HS]. pose proof (proj1 (v_bank _ _ I)) as NN.
    destruct M1 as [M1 M1s], M2 as [M2 M2s]. rewrite U, Eid in *. split; [|split; [|split]].
    - intros d. split; [apply valid_amount_nonneg; assumption|]. specialize (L2 d). rewrite M1 in L2. cbn in L2. pose proof (NN (PoolReserve (wr_pool r)) d). lia.
    - specialize (L1 (wr_denom r)). cbn in L1. rewrite denom_eqb_refl in L1. lia.
    - intros a d. rewrite K1, M2, M1, U. unfold at_acc, of_denom. cbn [amount_of].
      destruct a; cbn [addr_eqb andb]; try lia; destruct (denom_eqb d (wr_denom r)); try lia.
    - intros d. rewrite K2, M2s, M1s. reflexivity. }
  destruct (wr_amt r =? pool_ps s p).
  - unfold finish_wd in H. cbn [wr_status] in H. rewrite P in H. injection H as <-. split.
    + econstructor; [exact MW|]. apply mics_one.
      match goal with |- mic Q ?a _ => change (mic Q a (mark_disabled a p)) end. apply mic_disable; [rewrite Eid; assumption|right; exact HS].
    + intros k Nk. cbn. apply mget_mset_neq. assumption.
  - unfold finish_wd in H. cbn [wr_status] in H. rewrite P in H. injection H as <-. split; [apply mics_one; exact MW|].
    intros k Nk. cbn. apply mget_mset_neq. assumption.
Qed.

(** The three later stages of ExecuteRequests. *)
Lemma expire_stage (Q : ctl) s s' : batching Q -> inv Q s -> for_each (fun kv => expire_order (snd kv)) (st_orders s) s = Some s' -> mics Q s s'.
Proof.
  intros HS I H. pose proof (i_orders_sorted _ (v_str _ _ I)) as S.
  refine (for_each_snap Q st_orders expire_order (st_orders s) _ (msorted_NoDup _ S) s s' I _ H).
  - intros k v a b Ia G F. exact (expire_mics Q v k a b HS Ia G F).
  - intros k v. apply snap_current. assumption.
Qed.
Lemma dep_stage (Q : ctl) s s' : stage_of Q = SReq -> inv Q s -> for_each (fun kv => execute_dep_if (snd kv)) (st_deps s) s = Some s' -> mics Q s s'.
Proof.
  intros HS I H. pose proof (i_deps_sorted _ (v_str _ _ I)) as S.
  refine (for_each_snap Q st_deps execute_dep_if (st_deps s) _ (msorted_NoDup _ S) s s' I _ H).
  - intros k v a b Ia G F. destruct (i_deps _ (v_str _ _ Ia) _ _ G) as (-> & _). unfold execute_dep_if in F.
    destruct (dr_status v) eqn:E; [exact (execute_dep_mics Q v a b HS Ia G E F)| |]; injection F as <-; (split; [constructor|reflexivity]).
  - intros k v. apply snap_current. assumption.
Qed.
Lemma wd_stage (Q : ctl) s s' : stage_of Q = SReq -> inv Q s -> for_each (fun kv => execute_wd_if (snd kv)) (st_wds s) s = Some s' -> mics Q s s'.
Proof.
  intros HS I H. pose proof (i_wds_sorted _ (v_str _ _ I)) as S.
  refine (for_each_snap Q st_wds execute_wd_if (st_wds s) _ (msorted_NoDup _ S) s s' I _ H).
  - intros k v a b Ia G F. destruct (i_wds _ (v_str _ _ Ia) _ _ G) as (-> & _). unfold execute_wd_if in F.
    destruct (wr_status v) eqn:E; [exact (execute_wd_mics Q v a b HS Ia G E F)| |]; injection F as <-; (split; [constructor|reflexivity]).
  - intros k v. apply snap_current. assumption.
Qed.
