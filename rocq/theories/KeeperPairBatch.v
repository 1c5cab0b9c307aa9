(** What one batch does to one pair. *)
From Verif Require Import Base Dec DecProofs TickModel OrderModel MatchModel MatchSpec MatchProofs MatchTop OrderProofs PoolModel PoolProofs KeeperModel KeeperLib KeeperSpec KeeperSpec2 LedgerSpec KeeperMicro KeeperBank KeeperSteps KeeperReqs KeeperOrders KeeperBulk KeeperTrade KeeperInv KeeperHist KeeperSettle KeeperBlock KeeperPlace KeeperExpire.
From Coq Require Import Permutation.

Lemma req_pairs_mic (Q : ctl) s s' : mic Q s s' -> stage_of Q = SReq -> st_pairs s' = st_pairs s.
Proof.
  intros M B. assert (N : stage_of Q <> SMsg) by congruence. assert (N' : stage_of Q <> SBegin) by congruence.
  destruct M; try congruence; norm_send; try reflexivity. destruct (finish_order_spec _ _ _ _ H2 H0) as (b0 & _ & ->). destruct (ko_type o); reflexivity.
Qed.
Lemma req_pairs_mics (Q : ctl) s s' : mics Q s s' -> stage_of Q = SReq -> st_pairs s' = st_pairs s.
Proof. induction 1 as [|s1 s2 s3 M1 M IH]; intros B; [reflexivity|]. rewrite (IH B). exact (req_pairs_mic Q _ _ M1 B). Qed.

Section OnePair.
Variable Q : params -> Prop.
Variable iter : list (nat * Z) -> list (nat * Z).
Hypothesis Hi : is_perm_iter iter.
Variables s s' : state.
Hypothesis R : reach (sane Q) (InBlock, s).
Hypothesis HB : st_height s mod pm_batch_size (st_params s) = 0.
Hypothesis HE : end_block iter s = Some s'.

(** Pair [pr] is matched once, in a state [sa] in which it and its orders are as at the start of the batch;
    what its matching makes of the pair is what the batch makes of it. *)
Theorem batch_pair i pr : get_pair s i = Some pr ->
  exists sa sb, pr_id pr = i /\ at_matching iter s pr sa /\ execute_matching iter pr sa = Some sb /\ inv (mkCtl (sane Q) STrade) sa /\ get_pair sa i = Some pr /\
    st_time sa = st_time s /\ st_params sa = st_params s /\ (forall j, get_order sa i j = get_order s i j) /\ get_pair s' i = get_pair sb i /\
    exists s1, (forall j, get_order s1 i j = get_order sb i j) /\ inv (mkCtl (sane Q) SReq) s1 /\ mics (mkCtl (sane Q) SReq) s1 s'.
Proof.
  intros Gp. destruct (batch_time Q iter Hi s s' R HB HE) as (_ & s1 & s2 & E1 & E2 & O2 & M1 & I1 & T1). pose proof (proj1 (okp_st _ STrade _) (reach_okp Q _ R)) as I. cbn [snd] in I.
  assert (Epr : pr_id pr = i) by exact (get_pair_id _ _ _ (v_str _ _ I) Gp). unfold get_pair in Gp.
  pose proof (i_pairs_sorted _ (v_str _ _ I)) as Sp. pose proof (msorted_NoDup _ Sp) as Np.
  destruct (in_split _ _ (mget_In _ _ _ Gp)) as (l1 & l2 & El).
  assert (Cur : forall k v, In (k, v) (l1 ++ (i, 0, pr) :: l2) -> mget (st_pairs s) k = Some v) by (intros k v X; apply snap_current; [exact Sp|rewrite El; exact X]).
  pose proof E1 as E0. rewrite El in E1, Np. destruct (for_each_app _ _ _ _ _ E1) as (sa & Ea & Eb). cbn [for_each snd] in Eb. destruct (execute_matching iter pr sa) as [sb|] eqn:Ex; [|discriminate Eb].
  rewrite map_app in Np. cbn [map fst] in Np. pose proof (NoDup_remove_2 _ _ _ Np) as Nin. pose proof (NoDup_remove_1 _ _ _ Np) as Nd.
  assert (N1 : NoDup (map fst l1) /\ NoDup (map fst l2)).
  { clear -Nd. induction (map fst l1) as [|x l IH]; [split; [constructor|exact Nd]|]. cbn [app] in Nd. apply NoDup_cons_iff in Nd. destruct Nd as [A B]. destruct (IH B) as [C D]. split; [constructor; [|exact C]|exact D]. intros X. apply A, in_app_iff. left. exact X. }
  destruct N1 as [N1 N2]. rewrite in_app_iff in Nin.
  destruct (matching_around (mkCtl (sane Q) STrade) iter l1 Hi (batch_sane Q) eq_refl s sa I N1) as (Ma & Ta & Pma & Oa & Pa); [intros k v X; apply Cur, in_app_iff; left; exact X|exact Ea|].
  pose proof (inv_mics _ _ _ Ma I) as Ia.
  assert (Gpa : get_pair sa i = Some pr) by (unfold get_pair; rewrite Pa by tauto; exact Gp).
  exists sa, sb. split; [exact Epr|]. split; [exists l1, l2; rewrite Epr; auto|]. split; [exact Ex|]. split; [exact Ia|]. split; [exact Gpa|]. split; [exact Ta|]. split; [exact Pma|].
  split; [intros j; unfold get_order; apply Oa; cbn [fst]; tauto|].
  assert (Ps : st_pairs s' = st_pairs s1 /\ mics (mkCtl (sane Q) SReq) s1 s').
  { pose proof (batch_requests iter s s' HB HE) as H. unfold execute_requests in H. rewrite E0 in H. rewrite E2 in H.
    pose proof (expire_stage (mkCtl (sane Q) SReq) s1 s2 (or_intror eq_refl) I1 E2) as M2. pose proof (inv_mics _ _ _ M2 I1) as I2.
    destruct (for_each _ (st_deps s2) s2) as [s3|] eqn:E3; [|discriminate H]. pose proof (dep_stage (mkCtl (sane Q) SReq) s2 s3 eq_refl I2 E3) as M3. pose proof (inv_mics _ _ _ M3 I2) as I3.
    pose proof (wd_stage (mkCtl (sane Q) SReq) s3 s' eq_refl I3 H) as M4. split; [|eauto using mics_trans]. rewrite (req_pairs_mics _ _ _ M4 eq_refl), (req_pairs_mics _ _ _ M3 eq_refl). exact (req_pairs_mics _ _ _ M2 eq_refl). }
  destruct Ps as [Ps Ms]. unfold get_pair. rewrite Ps.
  rewrite <- Epr in Gpa. destruct (execute_matching_spec (mkCtl (sane Q) STrade) iter pr sa sb Hi Ia (batch_sane Q) eq_refl Gpa Ex) as (ss & price & hu & ps & _ & _ & Mb & Pb & _ & _ & _ & Tb & _).
  pose proof (inv_mics _ _ _ Mb Ia) as Ib.
  destruct (matching_around (mkCtl (sane Q) STrade) iter l2 Hi (batch_sane Q) eq_refl sb s1 Ib N2) as (_ & _ & _ & Ob & Pb'); [|exact Eb|].
  { intros k v X. rewrite Pb. assert (Nk : k <> (i, 0)) by (intros ->; apply Nin; right; exact (in_map fst _ _ X)). rewrite mget_mset_neq by (rewrite Epr; exact Nk). rewrite Pa; [apply Cur, in_app_iff; right; right; exact X|].
    intros Y. clear -Nd X Y. revert Nd. induction (map fst l1) as [|x l IH]; [destruct Y|]. cbn [app]. intros Nd. apply NoDup_cons_iff in Nd. destruct Nd as [A B]. destruct Y as [->|Y]; [|exact (IH Y B)]. apply A, in_app_iff. right. exact (in_map fst _ _ X). }
  split; [apply Pb'; tauto|]. exists s1. split; [intros j; unfold get_order; apply Ob; cbn [fst]; tauto|]. split; [exact I1|exact Ms].
Qed.
End OnePair.
