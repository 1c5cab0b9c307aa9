(** What a whole batch pays into and out of the reserve of a pool. *)
From Verif Require Import Base Dec DecProofs TickModel OrderModel MatchModel MatchSpec MatchProofs PoolModel KeeperModel KeeperLib KeeperSpec KeeperSpec2 LedgerSpec KeeperMicro KeeperBank KeeperSteps KeeperReqs KeeperOrders KeeperBulk KeeperTrade KeeperInv KeeperHist KeeperSettle KeeperBlock KeeperExpire KeeperPairBatch IsoSpec KeeperIso KeeperIso2 KeeperIso3 KeeperHalt GenesisProofs ProductSpec PoolLedgerSpec KeeperPoolLedger.

Section Batch.
Variable A : params -> Prop.
Hypothesis HA : forall p, A p -> sane_ratio p /\ plain_collectors p.
Variable iter : list (nat * Z) -> list (nat * Z).
Hypothesis Hi : is_perm_iter iter.
Variable n : Z.
Let P : Z -> bool := Z.eqb n.

Lemma plain_wst i P' s : str s -> plain_collectors (st_params s) -> wst i P' False s.
Proof. intros S PC. apply wst_str; [exact S|intros []|]. intros [E|(m & E & _)]; [exact (proj1 (proj1 PC) _ E)|exact (proj2 (proj1 PC) _ E)]. Qed.

(** The matching stage. *)
Lemma matched_traded s sm p pr : inv (mkCtl A STrade) s -> get_pool s n = Some p -> get_pair s (pl_pair p) = Some pr -> all_matched iter s sm ->
  inv (mkCtl A STrade) sm /\ ((forall d, reserve sm n d = reserve s n d) \/
  exists mp ap bs ss fb fs, (exists pr', get_pair sm (pl_pair p) = Some pr' /\ pr_last_price pr' = Some mp) /\ traded s sm pr p mp ap bs ss fb fs).
Proof.
  intros I Gn Gp H. unfold all_matched in H. set (i := pl_pair p) in *. assert (HQ : forall x, A x -> sane_ratio x) by (intros x X; apply HA; exact X).
  pose proof (v_str _ _ I) as S. assert (PC : plain_collectors (st_params s)) by (apply HA; apply (v_params _ _ I)).
  assert (W : wst i (pool_in s i) True s).
  { apply wst_str; [exact S| |]. - intros _ m q G. unfold pool_in. rewrite G. apply Z.eqb_eq. - intros [E|(m & E & _)]; [exact (proj1 (proj1 PC) _ E)|exact (proj2 (proj1 PC) _ E)]. }
  assert (One : one i (pool_in s i) True (mkCtl A STrade) st_pairs (execute_matching iter) (fun k => fst k =? i)).
  { intros k v x x' Ix Wx G E. pose proof (pairs_key _ _ _ _ Ix G) as ->.
    destruct (execute_matching_spec _ iter v x x' Hi Ix HQ eq_refl G E) as (ss & price & hu & ps & _ & _ & Mi & Pr & _). split; [exact Mi|]. split; [intros k' Nk; rewrite Pr; apply mget_mset_neq; assumption|].
    split; [exact (matching_w i (pool_in s i) True iter v x x' (v_str _ _ Ix) Wx E)|]. cbn [fst]. intros Ne. apply Z.eqb_neq in Ne. exact (matching_fr i (pool_in s i) True _ iter v x x' Logic.I Hi Ix HQ eq_refl G Wx Ne E). }
  pose proof (i_pairs_sorted _ S) as Sp.
  assert (Rd : ready i (pool_in s i) True (mkCtl A STrade) st_pairs (st_pairs s) s) by (split; [exact I|split; [exact W|split; [apply msorted_NoDup; exact Sp|intros k v; apply snap_current; exact Sp]]]).
  assert (Epr : pr_id pr = i) by exact (get_pair_id _ _ _ S Gp).
  assert (Fl : filter (fun kv : key * pair => fst (fst kv) =? i) (st_pairs s) = [((i, 0), pr)]).
  { apply msorted_ext; [apply msorted_filter; exact Sp|constructor; constructor|]. intros [a b]. rewrite mget_filter by (apply msorted_NoDup; exact Sp). cbn [fst mget]. destruct (key_eqb_spec (a, b) (i, 0)) as [E|N].
    - injection E as -> ->. unfold get_pair in Gp. rewrite Gp, Z.eqb_refl. reflexivity.
    - destruct (mget (st_pairs s) (a, b)) as [v|] eqn:G; [|reflexivity]. pose proof (pairs_key _ _ _ _ I G) as Ek. injection Ek as Ea Eb. destruct (Z.eqb_spec a i) as [->|]; [|reflexivity]. exfalso. apply N. congruence. }
  split; [exact (proj1 (stage_ready _ _ _ _ _ _ _ _ One _ _ Rd H))|].
  destruct (stage_skip i (pool_in s i) True _ _ _ _ _ _ _ _ One Fl _ _ Rd H) as (r & a & b & M1 & _ & Ia & Wa & Ga & Ea & Rb & Fr & Er).
  pose proof (stage_frame i (pool_in s i) True _ _ _ _ r One Fr _ _ Rb Er) as M2.
  assert (Pn : pool_in s i n = true) by (unfold pool_in; rewrite Gn; apply Z.eqb_refl). assert (On : own i (pool_in s i) (PoolReserve n)) by (right; exists n; auto).
  assert (Ra : forall d, reserve a n d = reserve s n d) by (intros d; symmetry; apply (ag_bal _ _ _ _ (m_bank _ _ _ _ M1)); exact On).
  assert (Rm : forall d, reserve sm n d = reserve b n d) by (intros d; symmetry; apply (ag_bal _ _ _ _ (m_bank _ _ _ _ M2)); exact On).
  assert (Gna : get_pool a n = Some p) by (rewrite <- (m_pools _ _ _ _ M1 n Pn); exact Gn).
  assert (Pa : st_params a = st_params s) by (symmetry; exact (m_params _ _ _ _ M1)).
  assert (Wn : KeeperIso.wst (-1) (Z.eqb n) False a) by (apply plain_wst; [exact (v_str _ _ Ia)|rewrite Pa; exact PC]).
  assert (Gpa : get_pair a (pr_id pr) = Some pr) by (rewrite Epr; exact Ga).
  destruct (matching_traded n _ iter pr a b p Hi Ia HQ eq_refl Gpa Wn Gna Ea) as [U|(mp & ap & bs & ss & fb & fs & (pr' & G' & L') & T)].
  - left. intros d. rewrite Rm, U. apply Ra.
  - right. exists mp, ap, bs, ss, fb, fs. split; [exists pr'; split; [rewrite Epr in G'; rewrite <- G'; symmetry; exact (m_pair _ _ _ _ M2)|exact L']|].
    assert (En : pl_id p = n) by (destruct (i_pools _ S _ _ Gn) as (X & _); injection X as ->; reflexivity).
    destruct T as [T1 T2 T3 T4 T5 T6 T7 T8 T9 T10]. rewrite En in T2, T8, T9, T10. constructor; [exact T1| |exact T3|rewrite <- Pa; exact T4|exact T5|exact T6|exact T7| | |].
    + rewrite En, <- !Ra. replace (supply (st_bank s) (PoolCoin n)) with (supply (st_bank a) (PoolCoin n)); [exact T2|]. symmetry. apply (ag_sup _ _ _ _ (m_bank _ _ _ _ M1)). exact Pn.
    + rewrite En, Rm, T8, !Ra. reflexivity.
    + rewrite En, Rm, T9, !Ra. reflexivity.
    + intros d N1 N2. rewrite En, Rm, (T10 d N1 N2), Ra. reflexivity.
Qed.

(** The stages after it. *)
Notation mkt := (mkt (-1) P).
Lemma each_mkt {V} (Q : ctl) (proj : state -> amap V) f l : forall s s', (forall k v x x', In (k, v) l -> inv Q x -> mget (proj x) k = Some v -> f v x = Some x' -> mics Q x x' /\ (forall k', k' <> k -> mget (proj x') k' = mget (proj x) k') /\ mkt x x') ->
  inv Q s -> NoDup (map fst l) -> (forall k v, In (k, v) l -> mget (proj s) k = Some v) -> for_each (fun kv => f (snd kv)) l s = Some s' -> inv Q s' /\ mkt s s'.
Proof.
  induction l as [|[k v] l IH]; intros s s' O I N C H; cbn [for_each] in H; [injection H as <-; split; [exact I|apply mkt_refl]|]. cbn [snd] in H. destruct (f v s) as [s1|] eqn:E; [|discriminate H].
  inversion N as [|? ? N1 N2]; subst. destruct (O k v s s1 (or_introl eq_refl) I (C _ _ (or_introl eq_refl)) E) as (M & K & F).
  assert (C1 : forall k' v', In (k', v') l -> mget (proj s1) k' = Some v') by (intros k' v' X; rewrite K; [apply C; right; exact X|]; intros ->; apply N1; exact (in_map fst _ _ X)).
  destruct (IH s1 s' (fun k v x x' X => O k v x x' (or_intror X)) (inv_mics _ _ _ M I) N2 C1 H) as (I2 & F2). split; [exact I2|exact (mkt_trans _ _ _ _ _ F F2)].
Qed.
Lemma rest_reserve sm s2 s3 s' : inv (mkCtl A SReq) sm ->
  (forall j r, mget (st_deps sm) (n, j) = Some r -> dr_status r <> RNotExecuted) -> (forall j r, mget (st_wds sm) (n, j) = Some r -> wr_status r <> RNotExecuted) ->
  for_each (fun kv => expire_order (snd kv)) (st_orders sm) sm = Some s2 -> for_each (fun kv => execute_dep_if (snd kv)) (st_deps s2) s2 = Some s3 -> for_each (fun kv => execute_wd_if (snd kv)) (st_wds s3) s3 = Some s' ->
  forall d, reserve s' n d = reserve sm n d.
Proof.
  intros Im Hd Hw E2 E3 E4 d.
  assert (PC : forall st x, inv (mkCtl A st) x -> plain_collectors (st_params x)) by (intros st x Ix; apply HA; apply (v_params _ _ Ix)).
  assert (S2 : inv (mkCtl A SReq) s2 /\ mkt sm s2).
  { refine (each_mkt (mkCtl A SReq) st_orders expire_order _ sm s2 _ Im (msorted_NoDup _ (i_orders_sorted _ (v_str _ _ Im))) (fun k v => snap_current _ k v (i_orders_sorted _ (v_str _ _ Im))) E2).
    intros k v x x' _ Ix G E. destruct (expire_mics (mkCtl A SReq) v k x x' (or_intror eq_refl) Ix G E) as [Mi O]. split; [exact Mi|]. split; [exact O|].
    destruct (i_orders _ (v_str _ _ Ix) _ _ G) as (-> & pr & Gp & Ok). destruct (i_pairs _ (v_str _ _ Ix) _ _ Gp) as (Ek & R & _). injection Ek as Ek. assert (U : exists u, ko_owner v = User u) by apply Ok. destruct U as (u & Ou).
    refine (expire_fr (-1) P v x x' u _ Ou E). lia. }
  destruct S2 as (I2 & M2). destruct (expire_keeps_reqs _ _ _ E2) as (Ed2 & Ew2 & _). destruct (deps_keep_wds _ _ _ E3) as (Ew3 & _).
  assert (S3 : inv (mkCtl A SReq) s3 /\ mkt s2 s3).
  { refine (each_mkt (mkCtl A SReq) st_deps execute_dep_if _ s2 s3 _ I2 (msorted_NoDup _ (i_deps_sorted _ (v_str _ _ I2))) (fun k v => snap_current _ k v (i_deps_sorted _ (v_str _ _ I2))) E3).
    intros k v x x' Hin Ix G E. apply (snap_current _ _ _ (i_deps_sorted _ (v_str _ _ I2))) in Hin. rewrite Ed2 in Hin. destruct (i_deps _ (v_str _ _ Ix) _ _ G) as (-> & _ & _ & _ & (u & Ou) & _). unfold execute_dep_if in E.
    destruct (dr_status v) eqn:Es; [|injection E as <-; split; [constructor|split; [reflexivity|apply mkt_refl]]|injection E as <-; split; [constructor|split; [reflexivity|apply mkt_refl]]].
    destruct (execute_dep_mics (mkCtl A SReq) v x x' eq_refl Ix G Es E) as [Mi O]. split; [exact Mi|]. split; [exact O|]. refine (execute_dep_fr (-1) P False x v x' u (plain_wst _ _ _ (v_str _ _ Ix) (PC _ _ Ix)) _ Ou E).
    apply Z.eqb_neq. intros En. rewrite <- En in Hin. exact (Hd _ _ Hin Es). }
  destruct S3 as (I3 & M3).
  assert (S4 : inv (mkCtl A SReq) s' /\ mkt s3 s').
  { refine (each_mkt (mkCtl A SReq) st_wds execute_wd_if _ s3 s' _ I3 (msorted_NoDup _ (i_wds_sorted _ (v_str _ _ I3))) (fun k v => snap_current _ k v (i_wds_sorted _ (v_str _ _ I3))) E4).
    intros k v x x' Hin Ix G E. apply (snap_current _ _ _ (i_wds_sorted _ (v_str _ _ I3))) in Hin. rewrite Ew3, Ew2 in Hin. destruct (i_wds _ (v_str _ _ Ix) _ _ G) as (-> & _ & Ed & _ & (u & Ou)). unfold execute_wd_if in E.
    destruct (wr_status v) eqn:Es; [|injection E as <-; split; [constructor|split; [reflexivity|apply mkt_refl]]|injection E as <-; split; [constructor|split; [reflexivity|apply mkt_refl]]].
    destruct (execute_wd_mics (mkCtl A SReq) v x x' eq_refl Ix G Es E) as [Mi O]. split; [exact Mi|]. split; [exact O|]. refine (execute_wd_fr (-1) P False x v x' u (plain_wst _ _ _ (v_str _ _ Ix) (PC _ _ Ix)) _ Ou Ed E).
    apply Z.eqb_neq. intros En. rewrite <- En in Hin. exact (Hw _ _ Hin Es). }
  destruct S4 as (_ & M4). unfold reserve. rewrite (mkt_reserve n _ _ M4), (mkt_reserve n _ _ M3), (mkt_reserve n _ _ M2). reflexivity.
Qed.
End Batch.
