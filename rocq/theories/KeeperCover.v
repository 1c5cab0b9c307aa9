(** The escrow of a pair over histories: only the matching of the pair itself, and only in its base
    coin, can lower what the escrow holds beyond what it owes. *)
From Verif Require Import Base Dec DecProofs TickModel OrderModel MatchModel MatchSpec MatchProofs MatchTop PoolModel PoolProofs KeeperModel KeeperLib KeeperSpec CoverSpec KeeperMicro KeeperBank KeeperSteps KeeperReqs KeeperOrders KeeperBulk KeeperTrade KeeperInv KeeperHist KeeperSettle KeeperBlock KeeperExpire.
From Coq Require Import Permutation.

Lemma mark_disabled_get s p k p' : get_pool (mark_disabled s p) k = Some p' -> (k = pl_id p /\ pl_disabled p' = true) \/ get_pool s k = Some p'.
Proof.
  unfold get_pool, mark_disabled, put_pool. cbn [st_pools set_pools pl_id]. rewrite mget_mset. destruct (key_eqb_spec (k, 0) (pl_id p, 0)) as [E|N].
  - intros X. injection X as <-. injection E as ->. left. auto.
  - auto.
Qed.
(** The pools taking part are active pools of the index. *)
Lemma collect_pools_active pr l : forall s s2 ps, (forall k p, get_pool s k = Some p -> pl_id p = k) -> collect_pools l pr s = Some (s2, ps) ->
  Forall (fun ip => In (fst ip) (map (fun kv => snd (fst kv)) l) /\ exists p, get_pool s (fst ip) = Some p /\ pl_disabled p = false) ps.
Proof.
  induction l as [|[k u] l IH]; intros s s2 ps Hid H; cbn [collect_pools] in H; [injection H as <- <-; constructor|].
  destruct (get_pool s (snd k)) as [p|] eqn:Ep; [|discriminate H].
  destruct (pl_disabled p) eqn:Dp.
  - eapply Forall_impl; [|exact (IH s s2 ps Hid H)]. intros a (X & Y). split; [right; exact X|exact Y].
  - destruct (of_res _) as [ap|]; [|discriminate H]. destruct (is_depleted ap).
    + assert (Hid' : forall j q, get_pool (mark_disabled s p) j = Some q -> pl_id q = j).
      { intros j q G. unfold get_pool, mark_disabled, put_pool in G. cbn [st_pools set_pools pl_id] in G. rewrite mget_mset in G. destruct (key_eqb_spec (j, 0) (pl_id p, 0)) as [E|N].
        - injection G as <-. injection E as ->. reflexivity.
        - exact (Hid j q G). }
      eapply Forall_impl; [|exact (IH _ s2 ps Hid' H)]. intros a (X & q & Y & Z). split; [right; exact X|].
      destruct (mark_disabled_get _ _ _ _ Y) as [(_ & W)|W]; [congruence|]. exists q. auto.
    + destruct (collect_pools l pr s) as [[s3 r]|] eqn:Er; [|discriminate H]. injection H as <- <-. cbn [fst snd]. constructor.
      * cbn [fst]. rewrite (Hid _ _ Ep). split; [left; reflexivity|]. exists p. auto.
      * eapply Forall_impl; [|exact (IH s s3 r Hid Er)]. intros a (X & Y). split; [right; exact X|exact Y].
Qed.

(** Live orders found during a batch were live, with the same terms, when it started. *)
Lemma batch_live (Q : ctl) s s' i j o : batching Q -> inv Q s -> mics Q s s' -> get_order s' i j = Some o -> live o = true ->
  exists o0, get_order s i j = Some o0 /\ live o0 = true /\ ko_dir o0 = ko_dir o /\ ko_price o0 = ko_price o.
Proof.
  intros B I M G L. assert (A : amics (allowed Q) s s') by (destruct Q as [al st]; exact (mics_amics _ _ _ _ M)).
  assert (Ok : okp (allowed Q) s) by (destruct Q as [al st]; apply (okp_st al st); exact I).
  destruct (l_orders _ _ (later_amics _ _ _ A Ok) _ _ _ G) as [(o0 & G0 & La)|(N & _)].
  - exists o0. destruct La as (_ & _ & _ & _ & _ & D & _ & _ & _ & P & _ & _ & _ & _ & _ & _ & Lv & _). split; [exact G0|]. split; [|auto].
    destruct (live o0) eqn:L0; [reflexivity|]. rewrite (Lv eq_refl), L0 in L. exact L.
  - destruct (batch_keys _ _ _ M B) as (_ & _ & K). exfalso. unfold get_order in G, N. apply (proj1 (K (i, j))); [rewrite G; discriminate|exact N].
Qed.

Lemma batch_same_pools s s' k p (Q : ctl) : mics Q s s' -> stage_of Q <> SMsg -> get_pool s' k = Some p -> exists p0, get_pool s k = Some p0.
Proof.
  intros M B. revert p. induction M as [s|s1 s2 s3 M1 M2 IH]; intros p G; [eauto|]. destruct (IH p G) as (q & Gq). unfold get_pool in *.
  destruct (pools_mic _ _ _ M1) as [(E & _)|[(S & _)|(a & a' & Ga & La & _ & _ & E)]]; [rewrite E in Gq; eauto|contradiction|].
  rewrite E, mget_mset in Gq. destruct (key_eqb_spec (k, 0) (pl_id a', 0)) as [Ek|N]; [|eauto].
  injection Ek as ->. destruct La as (-> & _). unfold get_pool in Ga. eauto.
Qed.

Lemma matching_slack (Q : ctl) iter pr s s' i d : is_perm_iter iter -> inv Q s -> (forall p, Q p -> sane_ratio p) -> stage_of Q = STrade -> get_pair s (pr_id pr) = Some pr ->
  execute_matching iter pr s = Some s' -> (pr_id pr = i -> d = pr_base pr -> sells_above_one s i) -> slack s i d <= slack s' i d.
Proof.
  intros Hi I HQ T Gp H Ab.
  destruct (execute_matching_spec Q iter pr s s' Hi I HQ T Gp H) as (ss & price & hu & ps & MB & MS & M & _ & _ & _ & _ & _ & _ & Oth & R).
  assert (L0 : slack s i d <= slack ss i d).
  { apply (slack_mics (mkCtl (allowed Q) SReq)); [apply MS; right; reflexivity|apply inv_ctl; exact I|discriminate]. }
  destruct R as [(_ & E & _)|(po & h & h2 & mp & qd & _ & Eh & Fpo & MD)]; [rewrite E; exact L0|].
  assert (Fw := Forall_impl _ fresh_wf (md_fresh _ _ _ _ _ _ _ _ _ MD)).
  destruct (match_outcome_totals _ _ _ _ _ Hi Fw (md_outcome _ _ _ _ _ _ _ _ _ MD)) as (_ & Q0 & _ & Eq).
  rewrite (md_slack _ _ _ _ _ _ _ _ _ MD).
  assert (D0 : 0 <= at_acc (PairEscrow i) (pm_dust_collector (st_params s)) (of_denom d (pr_quote pr) qd)).
  { unfold at_acc, of_denom. destruct (addr_eqb (PairEscrow i) (pm_dust_collector (st_params s))), (denom_eqb d (pr_quote pr)); lia. }
  destruct (Z.eqb_spec i (pr_id pr)) as [Ei|Ni]; [|lia]. destruct (denom_eqb_spec d (pr_base pr)) as [Ed|Nd]; [|lia].
  rewrite Eq; [lia|]. clear Eq D0 Q0. specialize (Ab (eq_sym Ei) Ed). destruct Ab as (Us & Pl).
  assert (Usr : forall o id, In o h -> o_kind o = KUser id -> o_dir o = Sell -> P18 <= o_price o).
  { intros o id Ho K Do. destruct (md_users _ _ _ _ _ _ _ _ _ MD o id Ho K) as (_ & id' & ko & K' & G & L & Dk & _ & _ & Pk & _).
    assert (Iss : inv (mkCtl (allowed Q) STrade) s) by (apply inv_ctl; exact I).
    destruct (batch_live (mkCtl (allowed Q) STrade) s ss (pr_id pr) id' ko (or_introl eq_refl) Iss (MS STrade (or_introl eq_refl)) G L) as (o0 & G0 & Lo & Do0 & Po).
    rewrite Pk, <- Po. subst i. apply (Us id' o0 G0 Lo). congruence. }
  intros o Ho Do. destruct Pl as [Np|Lim].
  - rewrite Eh in Ho. apply in_app_iff in Ho. destruct Ho as [Ho|Ho].
    + assert (In o h) by (rewrite Eh; apply in_app_iff; left; exact Ho). pose proof (mb_entries _ _ _ _ _ MB) as En. rewrite Forall_forall in En. destruct (En o Ho) as (_ & id & ko & K & _). eauto.
    + exfalso. rewrite Forall_forall in Fpo. destruct (Fpo o Ho) as (_ & a & _ & Ia). apply in_map_iff in Ia. destruct Ia as ([a' ap] & Ea & Ia). cbn in Ea. subst a'.
      destruct (mb_collect _ _ _ _ _ MB) as (s1 & C1 & C2).
      assert (Pre : NoDup (map fst (mprefix (st_orders s) (pr_id pr)))) by (apply msorted_NoDup, msorted_filter, (i_orders_sorted _ (v_str _ _ I))).
      assert (Cur : forall k o, In (k, o) (mprefix (st_orders s) (pr_id pr)) -> mget (st_orders s) k = Some o /\ fst k = pr_id pr).
      { intros k x X. apply mprefix_In in X. destruct X as [X Y]. split; [apply snap_current; [apply (i_orders_sorted _ (v_str _ _ I))|assumption]|exact Y]. }
      destruct (collect_orders_spec Q (pr_id pr) _ (or_introl T) s [] s1 hu I Pre Cur (Forall_nil _) (NoDup_nil _) (fun _ _ _ X => X) C1) as (_ & R1 & _).
      destruct R1 as (_ & Ep & Ei1 & _).
      assert (Gid : forall k p, get_pool s1 k = Some p -> pl_id p = k) by (intros k p G; unfold get_pool in G; rewrite Ep in G; eapply get_pool_id; [exact (v_str _ _ I)|exact G]).
      pose proof (collect_pools_active _ _ _ _ _ Gid C2) as X. rewrite Forall_forall in X. destruct (X _ Ia) as (Y & p & G & Dp). cbn [fst] in *.
      apply in_map_iff in Y. destruct Y as ([[x y] u] & Ey & Y). cbn in Ey. subst y. apply mprefix_In in Y. destruct Y as [Y Ex]. cbn in Ex. subst x. rewrite Ei1 in Y.
      apply (snap_current _ _ _ (i_plidx_sorted _ (v_str _ _ I))) in Y. destruct u. destruct (i_plidx _ (v_str _ _ I) _ _ Y) as (p0 & G0 & Pp).
      unfold get_pool in G, G0. rewrite Ep in G. assert (p0 = p) as -> by congruence. rewrite (Np a p G0 ltac:(congruence)) in Dp. discriminate Dp.
  - subst i. destruct (Lim pr Gp) as (last & lo & hi & El & Ell & Hlo).
    destruct (md_pool_sells _ _ _ _ _ _ _ _ _ MD last lo hi El Ell o Ho Do) as [(id & K)|X]; [eauto|lia].
Qed.

Lemma matching_loop (Q : ctl) iter i d l : is_perm_iter iter -> (forall p, Q p -> sane_ratio p) -> stage_of Q = STrade -> forall s s', inv Q s ->
  NoDup (map fst l) -> (forall k pr, In (k, pr) l -> mget (st_pairs s) k = Some pr) ->
  (forall pr, In ((i, 0), pr) l -> d = pr_base pr -> sells_above_one s i) ->
  for_each (fun kv : key * pair => execute_matching iter (snd kv)) l s = Some s' -> slack s i d <= slack s' i d.
Proof.
  intros Hi HQ T. induction l as [|[k pr] l IH]; intros s s' I N C Ab H; cbn [for_each] in H; [injection H as <-; lia|].
  cbn [snd] in H. destruct (execute_matching iter pr s) as [s1|] eqn:E; [|discriminate H].
  pose proof (C k pr (or_introl eq_refl)) as G. pose proof (pairs_key Q _ _ _ I G) as ->.
  destruct (execute_matching_spec Q iter pr s s1 Hi I HQ T G E) as (ss & price & hu & ps & _ & _ & M & P & _ & _ & Ep & Et & _ & Oth & _).
  cbn [map] in N. apply NoDup_cons_iff in N. destruct N as [N1 N2]. cbn [fst] in N1.
  assert (S1 : slack s i d <= slack s1 i d).
  { apply (matching_slack Q iter pr s s1 i d Hi I HQ T G E). intros Ei Ed. apply (Ab pr); [left; rewrite Ei; reflexivity|exact Ed]. }
  transitivity (slack s1 i d); [exact S1|]. apply (IH s1 s' (inv_mics Q _ _ M I) N2); [| |exact H].
  { intros k' pr' X. rewrite P. rewrite mget_mset_neq; [apply C; right; exact X|]. intros E0. apply N1. rewrite <- E0. exact (in_map fst _ _ X). }
  intros pr' X Ed. assert (Ni : i <> pr_id pr) by (intros ->; apply N1; exact (in_map fst _ _ X)).
  destruct (Ab pr' (or_intror X) Ed) as (Us & Pl). split.
  - intros j o Go. apply (Us j o). unfold get_order in *. rewrite <- Go. symmetry. apply Oth. exact Ni.
  - destruct Pl as [Np|Lim].
    + left. intros k p Gk Pk. assert (A : amics (allowed Q) s s1) by (destruct Q as [al st]; exact (mics_amics _ _ _ _ M)).
      assert (Ok : okp (allowed Q) s) by (destruct Q as [al st]; apply (okp_st al st); exact I). pose proof (later_amics _ _ _ A Ok) as La.
      destruct (batch_same_pools s s1 k p Q M ltac:(rewrite T; discriminate) Gk) as (p0 & G0).
      destruct (l_pools _ _ La _ _ G0) as (p1 & G1 & L1). assert (p1 = p) as -> by congruence. destruct L1 as (_ & Pp & _ & _ & _ & _ & Dd). apply Dd. apply (Np k p0 G0). congruence.
    + right. intros pr0 Gp. rewrite Ep. apply Lim. unfold get_pair in *. rewrite P, mget_mset_neq in Gp; [exact Gp|]. intros E0. apply Ni. congruence.
Qed.

(** ** Steps and histories *)
Lemma end_block_slack (A : params -> Prop) iter s s' i d : is_perm_iter iter -> okp A s -> (forall p, A p -> sane_ratio p) ->
  end_block iter s = Some s' -> (forall pr, get_pair s i = Some pr -> d = pr_base pr -> sells_above_one s i) -> slack s i d <= slack s' i d.
Proof.
  intros Hi I HQ H Ab. unfold end_block in H. destruct (_ =? 0); [|injection H as <-; lia]. unfold execute_requests in H.
  apply (okp_st A STrade) in I.
  destruct (for_each _ (st_pairs s) s) as [s1|] eqn:E1; [|discriminate H]. pose proof (match_stage (mkCtl A STrade) iter s s1 Hi I HQ eq_refl E1) as M1. pose proof (inv_mics _ _ _ M1 I) as I1.
  assert (L1 : slack s i d <= slack s1 i d).
  { apply (matching_loop (mkCtl A STrade) iter i d (st_pairs s) Hi HQ eq_refl s s1 I); [apply msorted_NoDup, (i_pairs_sorted _ (v_str _ _ I))| | |exact E1].
    - intros k v X. apply snap_current; [apply (i_pairs_sorted _ (v_str _ _ I))|assumption].
    - intros pr X. apply Ab. apply snap_current; [apply (i_pairs_sorted _ (v_str _ _ I))|assumption]. }
  apply (inv_ctl _ SReq) in I1. cbn [allowed] in I1.
  destruct (for_each _ (st_orders s1) s1) as [s2|] eqn:E2; [|discriminate H]. pose proof (expire_stage (mkCtl A SReq) s1 s2 (or_intror eq_refl) I1 E2) as M2. pose proof (inv_mics _ _ _ M2 I1) as I2.
  destruct (for_each _ (st_deps s2) s2) as [s3|] eqn:E3; [|discriminate H]. pose proof (dep_stage (mkCtl A SReq) s2 s3 eq_refl I2 E3) as M3. pose proof (inv_mics _ _ _ M3 I2) as I3.
  pose proof (wd_stage (mkCtl A SReq) s3 s' eq_refl I3 H) as M4.
  transitivity (slack s1 i d); [exact L1|]. apply (slack_mics (mkCtl A SReq)); [exact (mics_trans _ _ _ _ M2 (mics_trans _ _ _ _ M3 M4))|exact I1|discriminate].
Qed.

Lemma step_slack (Q : params -> Prop) c c' i d : step (sane Q) c c' -> okp (sane Q) (snd c) ->
  (forall pr, fst c' = Between -> get_pair (snd c) i = Some pr -> d = pr_base pr -> sells_above_one (snd c) i) -> slack (snd c) i d <= slack (snd c') i d.
Proof.
  intros S I Ab. destruct S as [s t Ht|s m s' D P|iter s s' Hi E]; cbn [fst snd] in *.
  - apply (slack_mics (mkCtl (sane Q) SBegin)); [apply begin_block_mics; [reflexivity|assumption]|apply okp_st; exact I|discriminate].
  - apply (slack_mics (mkCtl (sane Q) SMsg)); [eapply deliver_mics; eauto|exact I|discriminate].
  - apply (end_block_slack (sane Q) iter); auto; [intros p [_ X]; exact X|]. intros pr. apply Ab. reflexivity.
Qed.

Lemma genesis_slack Q s i d : genesis (sane Q) s -> 0 <= slack s i d.
Proof. intros (p & b & h & t & _ & _ & (N & _) & _ & ->). unfold slack. change (orders_owed (init_state p b h t) i d) with 0. cbn [st_bank init_state]. specialize (N (PairEscrow i) d). lia. Qed.

Lemma where_runs Q P c c' : runs_where Q P c c' -> runs Q c c'.
Proof. intros H. induction H; [constructor|..]; econstructor; eassumption. Qed.

Lemma slack_history Q i d s0 c : genesis (sane Q) s0 -> runs_where (sane Q) (fun s => sells_above_one s i) (Between, s0) c -> 0 <= slack (snd c) i d.
Proof.
  intros G H. remember (Between, s0) as c0. revert Heqc0.
  assert (Ok : forall c, runs_where (sane Q) (fun s => sells_above_one s i) c0 c -> c0 = (Between, s0) -> okp (sane Q) (snd c)) by (intros x X ->; apply (reach_okp Q); exists s0; split; [exact G|exact (where_runs _ _ _ _ X)]).
  induction H as [c|c s t H IH S|c s t H IH S|c s t H IH Ps S]; intros E.
  - subst c. exact (genesis_slack Q s0 i d G).
  - specialize (IH Ok E). cbn [snd] in *. etransitivity; [exact IH|]. apply (step_slack Q (Between, s) (InBlock, t) i d S (Ok _ H E)). intros pr X. discriminate X.
  - specialize (IH Ok E). cbn [snd] in *. etransitivity; [exact IH|]. apply (step_slack Q (InBlock, s) (InBlock, t) i d S (Ok _ H E)). intros pr X. discriminate X.
  - specialize (IH Ok E). cbn [snd] in *. etransitivity; [exact IH|]. apply (step_slack Q (InBlock, s) (Between, t) i d S (Ok _ H E)). intros pr _ Gp Ed. exact Ps.
Qed.
Lemma slack_quote Q i d c : reach (sane Q) c -> (forall pr, get_pair (snd c) i = Some pr -> d <> pr_base pr) -> 0 <= slack (snd c) i d.
Proof.
  revert c. apply (reach_config (sane Q) (fun c => (forall pr, get_pair (snd c) i = Some pr -> d <> pr_base pr) -> 0 <= slack (snd c) i d)).
  - intros s G _. exact (genesis_slack Q s i d G).
  - intros c c' R S IH Nb. assert (La : later (snd c) (snd c')) by (apply (reach_later Q); [exact R|econstructor; [constructor|exact S]]).
    assert (Nb0 : forall pr, get_pair (snd c) i = Some pr -> d <> pr_base pr).
    { intros pr Gp. destruct (l_pairs _ _ La i pr Gp) as (pr' & Gp' & Lp). destruct Lp as (_ & <- & _). exact (Nb pr' Gp'). }
    etransitivity; [exact (IH Nb0)|]. apply (step_slack Q c c' i d S (reach_okp Q c R)). intros pr _ Gp Ed. exfalso. exact (Nb0 pr Gp Ed).
Qed.
