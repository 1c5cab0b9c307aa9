(** A disabled pool: no step takes coins out of it, mints or burns its pool coin or touches its record. *)
From Verif Require Import Base Dec OrderModel MatchModel MatchSpec MatchProofs PoolModel KeeperModel KeeperLib KeeperMicro KeeperBank KeeperSteps KeeperReqs KeeperTrade KeeperSpec KeeperInv GenesisProofs IsoSpec KeeperIso KeeperIso2 KeeperIso3 KeeperIso4.

Section Frozen.
Variable n : Z.
Notation P := (fun m : Z => m =? n).
Notation mkt := (mkt (-1) P).
Notation wst := (wst (-1) P False).
Notation own := (own (-1) P).
Notation agree := (agree (-1) P).
Definition dead (s : state) : Prop := exists p, get_pool s n = Some p /\ pl_disabled p = true.
Definition frz (s s' : state) : Prop := get_pool s' n = get_pool s n /\ agree (st_bank s) (st_bank s').
Lemma frz_refl s : frz s s.
Proof. split; [reflexivity|apply agree_refl]. Qed.
Lemma frz_trans a b c : frz a b -> frz b c -> frz a c.
Proof. intros [A1 A2] [B1 B2]. split; [congruence|exact (agree_trans _ _ _ _ _ A2 B2)]. Qed.
Lemma mkt_frz s s' : mkt s s' -> frz s s'.
Proof. intros M. split; [symmetry; apply (m_pools _ _ _ _ M); apply Z.eqb_refl|apply (m_bank _ _ _ _ M)]. Qed.
Lemma dead_frz s s' : dead s -> frz s s' -> dead s'.
Proof. intros (p & G & D) [E _]. exists p. split; [congruence|exact D]. Qed.
Lemma frozen_wst s : str s -> plain_collectors (st_params s) -> wst s.
Proof. intros S PC. apply wst_str; [exact S|intros []|]. intros [E|(m & E & _)]; [exact (proj1 (proj1 PC) _ E)|exact (proj2 (proj1 PC) _ E)]. Qed.

Lemma collect_pools_frozen pr l : forall s r, wst s -> dead s -> collect_pools l pr s = Some r -> mkt s (fst r) /\ Forall (fun ip => P (fst ip) = false) (snd r).
Proof.
  induction l as [|[k u] l IH]; intros s r W (q & Gq & Dq) H; cbn [collect_pools] in H; [injection H as <-; split; [apply mkt_refl|constructor]|].
  destruct (get_pool s (snd k)) as [p|] eqn:G; [|discriminate H]. destruct (w_pool _ _ _ _ W _ _ G) as [Ep _].
  destruct (pl_disabled p) eqn:Dp; [exact (IH _ _ W (ex_intro _ q (conj Gq Dq)) H)|].
  assert (Np : P (pl_id p) = false) by (apply Z.eqb_neq; intros X; rewrite <- Ep, X, Gq in G; congruence).
  destruct (of_res _) as [ap|]; [|discriminate H]. destruct (is_depleted ap).
  - pose proof (fr_put_pool (-1) P s (mkPool (pl_id p) (pl_pair p) (pl_kind p) (pl_creator p) (pl_last_dep p) (pl_last_wd p) true) Np) as Mm. change (put_pool s _) with (mark_disabled s p) in Mm.
    assert (Wm : wst (mark_disabled s p)) by (apply mark_w; [exact W|rewrite Ep; exact G]).
    assert (Dm : dead (mark_disabled s p)) by (apply (dead_frz s); [exists q; auto|apply mkt_frz; exact Mm]).
    destruct (IH _ _ Wm Dm H) as [A B]. split; [exact (mkt_trans _ _ _ _ _ Mm A)|exact B].
  - destruct (collect_pools l pr s) as [r1|] eqn:E; [|discriminate H]. injection H as <-. destruct (IH _ _ W (ex_intro _ q (conj Gq Dq)) E) as [A B]. cbn [fst snd]. split; [exact A|constructor; [exact Np|exact B]].
Qed.
Lemma matching_frozen (Q : ctl) iter pr s s' : is_perm_iter iter -> inv Q s -> (forall p, Q p -> sane_ratio p) -> stage_of Q = STrade -> get_pair s (pr_id pr) = Some pr -> plain_collectors (st_params s) -> dead s ->
  execute_matching iter pr s = Some s' -> frz s s'.
Proof.
  intros Hi I HQ T Gp PC D H. apply mkt_frz. destruct (i_pairs _ (v_str _ _ I) _ _ Gp) as (_ & R & _).
  refine (matching_fr_gen (-1) P False Q iter pr s s' _ Hi I HQ T Gp (frozen_wst _ (v_str _ _ I) PC) _ H); [|lia].
  intros s1 r W1 _ E0 E. refine (collect_pools_frozen pr _ s1 r W1 _ E). destruct D as (p & G & Dp). exists p. split; [|exact Dp]. unfold get_pool. rewrite E0. exact G.
Qed.
Lemma finish_dep_frozen s r st s' u : dr_owner r = User u -> finish_dep s r st = Some s' -> frz s s'.
Proof.
  intros Ou H. unfold finish_dep in H. destruct (dr_status r); [|injection H as <-; apply frz_refl|injection H as <-; apply frz_refl]. destruct (coins_sub _ _) as [rf|]; [|discriminate H].
  destruct rf as [|c cs]; [injection H as <-; split; [reflexivity|apply agree_refl]|]. destruct (st_send _ _ _ _) as [s1|] eqn:E; [|discriminate H]. injection H as <-.
  assert (M : mkt s s1) by (apply (send_fr (-1) P _ _ _ _ _ (not_own_global _ _)) in E; [exact E|rewrite Ou; apply not_own_user]). apply mkt_frz in M. exact M.
Qed.
Lemma finish_wd_frozen s r st s' u : wr_owner r = User u -> finish_wd s r st = Some s' -> frz s s'.
Proof.
  intros Ou H. unfold finish_wd in H. destruct (wr_status r); [|injection H as <-; apply frz_refl|injection H as <-; apply frz_refl].
  destruct st; [injection H as <-; split; [reflexivity|apply agree_refl]|injection H as <-; split; [reflexivity|apply agree_refl]|]. destruct (st_send _ _ _ _) as [s1|] eqn:E; [|discriminate H]. injection H as <-.
  assert (M : mkt s s1) by (apply (send_fr (-1) P _ _ _ _ _ (not_own_global _ _)) in E; [exact E|rewrite Ou; apply not_own_user]). apply mkt_frz in M. exact M.
Qed.
Lemma execute_dep_frozen s r s' u : wst s -> dead s -> dr_owner r = User u -> execute_dep s r = Some s' -> frz s s'.
Proof.
  intros W (p & G & D) Ou H. destruct (Z.eq_dec (dr_pool r) n) as [En|Nn].
  - unfold execute_dep in H. rewrite En, G, D in H. exact (finish_dep_frozen _ _ _ _ u Ou H).
  - apply mkt_frz. refine (execute_dep_fr (-1) P False _ _ _ u W _ Ou H). apply Z.eqb_neq. exact Nn.
Qed.
Lemma execute_wd_frozen s r s' u : wst s -> dead s -> wr_owner r = User u -> wr_denom r = PoolCoin (wr_pool r) -> execute_wd s r = Some s' -> frz s s'.
Proof.
  intros W (p & G & D) Ou Ed H. destruct (Z.eq_dec (wr_pool r) n) as [En|Nn].
  - unfold execute_wd in H. rewrite En, G, D in H. exact (finish_wd_frozen _ _ _ _ u Ou H).
  - apply mkt_frz. refine (execute_wd_fr (-1) P False _ _ _ u W _ Ou Ed H). apply Z.eqb_neq. exact Nn.
Qed.

Section Each.
Context {V : Type}.
Variable Q : ctl.
Variable proj : state -> amap V.
Variable f : V -> state -> option state.
Definition each : Prop := forall k v s s', inv Q s -> dead s -> mget (proj s) k = Some v -> f v s = Some s' ->
  mics Q s s' /\ (forall k', k' <> k -> mget (proj s') k' = mget (proj s) k') /\ frz s s'.
Lemma each_frozen l : each -> forall s s', inv Q s -> dead s -> NoDup (map fst l) -> (forall k v, In (k, v) l -> mget (proj s) k = Some v) -> for_each (fun kv => f (snd kv)) l s = Some s' -> inv Q s' /\ frz s s'.
Proof.
  intros O. induction l as [|[k v] l IH]; intros s s' I D N C H; cbn [for_each] in H; [injection H as <-; split; [exact I|apply frz_refl]|]. cbn [snd] in H. destruct (f v s) as [s1|] eqn:E; [|discriminate H].
  inversion N as [|? ? N1 N2]; subst. destruct (O k v s s1 I D (C _ _ (or_introl eq_refl)) E) as (M & K & F).
  assert (C1 : forall k' v', In (k', v') l -> mget (proj s1) k' = Some v') by (intros k' v' X; rewrite K; [apply C; right; exact X|]; intros ->; apply N1; exact (in_map fst _ _ X)).
  destruct (IH s1 s' (inv_mics _ _ _ M I) (dead_frz _ _ D F) N2 C1 H) as (I2 & F2). split; [exact I2|exact (frz_trans _ _ _ F F2)].
Qed.
Lemma each_whole s s' : each -> inv Q s -> dead s -> msorted (proj s) -> for_each (fun kv => f (snd kv)) (proj s) s = Some s' -> inv Q s' /\ frz s s'.
Proof. intros O I D S H. exact (each_frozen (proj s) O s s' I D (msorted_NoDup _ S) (fun k v => snap_current (proj s) k v S) H). Qed.
End Each.

Theorem batch_frozen (A : params -> Prop) iter s s' : is_perm_iter iter -> (forall p, A p -> sane_ratio p /\ plain_collectors p) -> inv (mkCtl A SMsg) s -> dead s ->
  end_block iter s = Some s' -> frz s s'.
Proof.
  intros Hi HA I D H. assert (HQ : forall p, A p -> sane_ratio p) by (intros p X; apply HA; exact X).
  assert (PC : forall st x, inv (mkCtl A st) x -> plain_collectors (st_params x)) by (intros st x Ix; apply HA; apply (v_params _ _ Ix)).
  unfold end_block in H. destruct (Z.eqb_spec (st_height s mod pm_batch_size (st_params s)) 0) as [Eb|Eb]; [|injection H as <-; apply frz_refl]. unfold execute_requests in H.
  apply (inv_ctl _ STrade) in I. cbn [allowed] in I.
  destruct (for_each _ (st_pairs s) s) as [a|] eqn:E1; [|discriminate H].
  assert (S1 : inv (mkCtl A STrade) a /\ frz s a).
  { refine (each_whole (mkCtl A STrade) st_pairs (execute_matching iter) s a _ I D (i_pairs_sorted _ (v_str _ _ I)) E1).
    intros k v x x' Ix Dx G E. pose proof (pairs_key _ _ _ _ Ix G) as ->. destruct (execute_matching_spec _ iter v x x' Hi Ix HQ eq_refl G E) as (ss & price & hu & ps & _ & _ & Mi & Pr & _). split; [exact Mi|].
    split; [intros k' Nk; rewrite Pr; apply mget_mset_neq; assumption|]. exact (matching_frozen _ iter v x x' Hi Ix HQ eq_refl G (PC _ _ Ix) Dx E). }
  destruct S1 as (Ia & Fa). apply (inv_ctl _ SReq) in Ia. cbn [allowed] in Ia. pose proof (dead_frz _ _ D Fa) as Da.
  destruct (for_each _ (st_orders a) a) as [b|] eqn:E2; [|discriminate H].
  assert (S2 : inv (mkCtl A SReq) b /\ frz a b).
  { refine (each_whole (mkCtl A SReq) st_orders expire_order a b _ Ia Da (i_orders_sorted _ (v_str _ _ Ia)) E2).
    intros k v x x' Ix Dx G E. destruct (expire_mics (mkCtl A SReq) v k x x' (or_intror eq_refl) Ix G E) as [Mi O]. split; [exact Mi|]. split; [exact O|].
    destruct (i_orders _ (v_str _ _ Ix) _ _ G) as (-> & pr & Gp & Ok). destruct (i_pairs _ (v_str _ _ Ix) _ _ Gp) as (Ek & R & _). injection Ek as Ek. assert (U : exists u, ko_owner v = User u) by apply Ok. destruct U as (u & Ou).
    apply mkt_frz. refine (expire_fr (-1) P v x x' u _ Ou E). lia. }
  destruct S2 as (Ib & Fb). pose proof (dead_frz _ _ Da Fb) as Db.
  destruct (for_each _ (st_deps b) b) as [c|] eqn:E3; [|discriminate H].
  assert (S3 : inv (mkCtl A SReq) c /\ frz b c).
  { refine (each_whole (mkCtl A SReq) st_deps execute_dep_if b c _ Ib Db (i_deps_sorted _ (v_str _ _ Ib)) E3).
    intros k v x x' Ix Dx G E. destruct (i_deps _ (v_str _ _ Ix) _ _ G) as (-> & _ & _ & _ & (u & Ou) & _). unfold execute_dep_if in E.
    destruct (dr_status v) eqn:Es; [|injection E as <-; split; [constructor|split; [reflexivity|apply frz_refl]]|injection E as <-; split; [constructor|split; [reflexivity|apply frz_refl]]].
    destruct (execute_dep_mics (mkCtl A SReq) v x x' eq_refl Ix G Es E) as [Mi O]. split; [exact Mi|]. split; [exact O|]. exact (execute_dep_frozen x v x' u (frozen_wst _ (v_str _ _ Ix) (PC _ _ Ix)) Dx Ou E). }
  destruct S3 as (Ic & Fc). pose proof (dead_frz _ _ Db Fc) as Dc.
  assert (S4 : inv (mkCtl A SReq) s' /\ frz c s').
  { refine (each_whole (mkCtl A SReq) st_wds execute_wd_if c s' _ Ic Dc (i_wds_sorted _ (v_str _ _ Ic)) H).
    intros k v x x' Ix Dx G E. destruct (i_wds _ (v_str _ _ Ix) _ _ G) as (-> & _ & Ed & _ & (u & Ou)). unfold execute_wd_if in E.
    destruct (wr_status v) eqn:Es; [|injection E as <-; split; [constructor|split; [reflexivity|apply frz_refl]]|injection E as <-; split; [constructor|split; [reflexivity|apply frz_refl]]].
    destruct (execute_wd_mics (mkCtl A SReq) v x x' eq_refl Ix G Es E) as [Mi O]. split; [exact Mi|]. split; [exact O|]. exact (execute_wd_frozen x v x' u (frozen_wst _ (v_str _ _ Ix) (PC _ _ Ix)) Dx Ou Ed E). }
  destruct S4 as (_ & Fd). exact (frz_trans _ _ _ Fa (frz_trans _ _ _ Fb (frz_trans _ _ _ Fc Fd))).
Qed.

(** ** Messages and the begin blocker *)
Definition grown (s s' : state) : Prop :=
  get_pool s' n = get_pool s n /\ supply (st_bank s') (PoolCoin n) = supply (st_bank s) (PoolCoin n) /\ forall d, bal (st_bank s) (PoolReserve n) d <= bal (st_bank s') (PoolReserve n) d.
Definition requests_kept (s s' : state) : Prop := forall j, mget (st_deps s') (n, j) = mget (st_deps s) (n, j) /\ mget (st_wds s') (n, j) = mget (st_wds s) (n, j).
Lemma frz_grown s s' : frz s s' -> grown s s'.
Proof.
  intros [A [B C]]. split; [exact A|]. split; [symmetry; apply C; apply Z.eqb_refl|]. intros d. rewrite (B (PoolReserve n) d); [lia|]. right. exists n. split; [reflexivity|apply Z.eqb_refl].
Qed.
Lemma grown_trans a b c : grown a b -> grown b c -> grown a c.
Proof. intros (A1 & A2 & A3) (B1 & B2 & B3). split; [congruence|]. split; [congruence|]. intros d. specialize (A3 d). specialize (B3 d). lia. Qed.
Lemma cancel_loop_frozen (Q : ctl) ids l : stage_of Q = SMsg -> forall x x', inv Q x -> for_each (cancel_one ids) l x = Some x' -> mkt x x'.
Proof.
  intros T. induction l as [|k l IH]; intros x x' I H; cbn [for_each] in H; [injection H as <-; apply mkt_refl|]. destruct (cancel_one ids k x) as [y|] eqn:E; [|discriminate H].
  refine (mkt_trans _ _ _ _ _ _ (IH _ _ (inv_mics _ _ _ (cancel_one_mics Q ids k x y T (v_str _ _ I) E) I) H)).
  unfold cancel_one in E. destruct k as [a b]. cbn [fst snd] in E. destruct (get_order x a b) as [o|] eqn:G; [|discriminate E].
  destruct (i_orders _ (v_str _ _ I) _ _ G) as (_ & pr & Gp & Ok). destruct (i_pairs _ (v_str _ _ I) _ _ Gp) as (Ek & R & _). injection Ek as Ek. assert (U : exists u, ko_owner o = User u) by apply Ok. destruct U as (u & Ou).
  assert (Z0 : forall z, Some x = Some z -> mkt x z) by (intros z Ez; injection Ez as <-; apply mkt_refl).
  destruct (_ || _); [|exact (Z0 _ E)]. cbv zeta in E. destruct (_ && _); [|exact (Z0 _ E)]. refine (finish_fr (-1) P _ _ _ _ u _ Ou E). lia.
Qed.
Theorem deliver_frozen (A : params -> Prop) m s s' : inv (mkCtl A SMsg) s -> plain_collectors (st_params s) -> dead s -> deliver s m = Some s' -> grown s s' /\ requests_kept s s'.
Proof.
  intros I PC D H. pose proof (v_str _ _ I) as S. pose proof (frozen_wst _ S PC) as W. unfold deliver in H. destruct (validate_basic m); [|discriminate H].
  assert (HP : forall k, get_pool s k = None -> P k = false) by (intros k G; apply Z.eqb_neq; intros ->; destruct D as (p & G' & _); congruence).
  assert (ND : forall k p, get_pool s k = Some p -> pl_disabled p = false -> P k = false) by (intros k p G Dp; apply Z.eqb_neq; intros ->; destruct D as (q & G' & Dq); congruence).
  assert (NP : forall j pr, get_pair s j = Some pr -> j <> -1) by (intros j pr G; destruct (i_pairs _ S _ _ G) as (Ek & R & _); injection Ek as ->; lia).
  assert (X : forall s1, mkt s s1 -> grown s s1 /\ requests_kept s s1) by (intros s1 M; split; [apply frz_grown, mkt_frz; exact M|intros j; split; symmetry; [apply (m_deps _ _ _ _ M)|apply (m_wds _ _ _ _ M)]; apply Z.eqb_refl]).
  assert (PL : forall typ u j d od offer dd price amt l x, place_order s typ u j d od offer dd price amt l = Some x -> mkt s x /\ j <> -1).
  { intros typ u j d od offer dd price amt l x E. destruct (place_order_spec _ _ _ _ _ _ _ _ _ _ _ _ S E) as (pr & rp & s1 & Gp & Ej & _).
    assert (Nj : j <> -1) by (rewrite <- Ej; exact (NP _ _ Gp)). split; [|exact Nj]. exact (proj1 (place_fr (-1) P s S _ _ _ _ _ _ _ _ _ _ _ Nj E)). }
  destruct m; cbn [handle] in H.
  - apply X. unfold create_pair in H. cbv zeta in H. destruct (match st_pidx s _ _ with Some _ => _ | None => _ end); [discriminate H|]. destruct (st_send _ _ _ _) as [s1|] eqn:E; [|discriminate H]. injection H as <-.
    pose proof (send_fr (-1) P _ _ _ _ _ (not_own_user (-1) P u) (plain_not_own (-1) P _ (proj2 PC)) E) as M.
    assert (L : st_last_pair s1 = st_last_pair s) by (apply st_send_spec in E; destruct E as (x & -> & _); reflexivity).
    assert (N : st_last_pair s1 + 1 <> -1) by (rewrite L; pose proof (i_nums _ S); lia).
    apply (mkt_trans _ _ _ _ _ M). apply (mkt_trans _ _ _ _ _ (fr_last_pair (-1) P s1 (st_last_pair s1 + 1))). apply (mkt_trans _ _ _ _ _ (fr_put_pair (-1) P _ (mkPair (st_last_pair s1 + 1) base quote 0 None 1) N)). apply fr_pidx.
  - apply X. assert (Nj : i <> -1) by (unfold create_pool in H; destruct (get_pair s i) as [pr|] eqn:G; [exact (NP _ _ G)|discriminate H]). exact (proj1 (create_pool_fr (-1) P s S PC HP _ _ _ _ Nj H)).
  - apply X. assert (Nj : i <> -1).
    { unfold create_rpool in H. cbv zeta in H. destruct (of_res _) as [x|]; [|discriminate H]. destruct (of_res _) as [y|] in H; [|discriminate H]. destruct (of_res _) as [z|] in H; [|discriminate H]. destruct (negb _); [discriminate H|].
      destruct (lowest_tick_chk _) as [lt|]; [|discriminate H]. destruct (_ <? _); [discriminate H|]. destruct (get_pair s i) as [pr|] eqn:G; [exact (NP _ _ G)|discriminate H]. }
    exact (proj1 (create_rpool_fr (-1) P s S PC HP _ _ _ _ _ _ _ Nj H)).
  - apply X. assert (Nn : P i = false) by (unfold deposit_msg in H; destruct (get_pool s i) as [p|] eqn:G; [|discriminate H]; destruct (pl_disabled p) eqn:Dp; [discriminate H|exact (ND _ _ G Dp)]). exact (proj1 (deposit_fr (-1) P s S _ _ _ _ Nn H)).
  - apply X. assert (Nn : P i = false) by (unfold withdraw_msg in H; destruct (get_pool s i) as [p|] eqn:G; [|discriminate H]; destruct (pl_disabled p) eqn:Dp; [discriminate H|exact (ND _ _ G Dp)]). exact (proj1 (withdraw_fr (-1) P s S _ _ _ _ _ Nn H)).
  - apply X. exact (proj1 (PL _ _ _ _ _ _ _ _ _ _ _ H)).
  - apply X. exact (proj1 (PL _ _ _ _ _ _ _ _ _ _ _ H)).
  - apply X. unfold mm_order in H. cbv zeta in H. destruct (_ <=? _); [discriminate H|]. destruct (place_order _ _ _ _ _ _ _ _ _ _ _) as [s1|] eqn:E; [|discriminate H]. injection H as <-. destruct (PL _ _ _ _ _ _ _ _ _ _ _ E) as [M Nj].
    exact (mkt_trans _ _ _ _ _ M (fr_set_mm (-1) P _ _ _ _ Nj)).
  - apply X. refine (proj1 (cancel_fr (-1) P False s W _ _ _ _ _ H)). unfold cancel_order in H. destruct (get_order s i j) as [o|] eqn:G; [|discriminate H]. destruct (i_orders _ S _ _ G) as (Ek & pr & Gp & _). injection Ek as -> _. exact (NP _ _ Gp).
  - apply X. unfold cancel_all in H. destruct (existsb _ _) in H; [discriminate H|]. exact (cancel_loop_frozen (mkCtl A SMsg) _ _ eq_refl _ _ I H).
  - destruct (valid_params p); [|discriminate H]. injection H as <-. split; [|intros j; split; reflexivity]. split; [reflexivity|]. split; [reflexivity|]. intros d. cbn. lia.
  - apply st_send_spec in H. destruct H as (b & -> & E). split; [|intros j; split; reflexivity]. split; [reflexivity|]. destruct (send_spec _ _ _ _ _ E) as (V & (Mv & Su) & _). cbn [st_bank set_bank]. split; [apply Su|]. intros d. rewrite Mv.
    pose proof (valid_amount_nonneg _ d V). change (addr_eqb (PoolReserve n) (User u)) with false. destruct (addr_eqb _ _); lia.
Qed.
End Frozen.

(** No message disables a pool. *)
Lemma msg_disables m s s' k p' : str s -> deliver s m = Some s' -> get_pool s' k = Some p' -> pl_disabled p' = true -> exists p, get_pool s k = Some p /\ pl_disabled p = true.
Proof.
  intros S H G D. unfold deliver in H. destruct (validate_basic m); [|discriminate H].
  assert (X : st_pools s' = st_pools s -> exists p, get_pool s k = Some p /\ pl_disabled p = true) by (intros E; exists p'; split; [unfold get_pool in *; congruence|exact D]).
  assert (Y : forall q, st_pools s' = mset (st_pools s) (pl_id q, 0) q -> pl_disabled q = false -> exists p, get_pool s k = Some p /\ pl_disabled p = true).
  { intros q E Dq. unfold get_pool in G. rewrite E, mget_mset in G. destruct (key_eqb_spec (k, 0) (pl_id q, 0)) as [Ek|Nk]; [injection G as <-; congruence|]. exists p'. split; [exact G|exact D]. }
  assert (PL : forall typ u j d od offer dd price amt l x, place_order s typ u j d od offer dd price amt l = Some x -> st_pools x = st_pools s).
  { intros typ u j d od offer dd price amt l x E. destruct (place_order_spec _ _ _ _ _ _ _ _ _ _ _ _ S E) as (pr & rp & s1 & _ & _ & _ & _ & _ & Es & _ & ->). exact (send_pools _ _ _ _ _ Es). }
  assert (T : forall u pr kind ps dc, create_pool_tail s u pr kind ps dc = Some s' -> exists p, get_pool s k = Some p /\ pl_disabled p = true).
  { intros u pr kind ps dc E. unfold create_pool_tail in E. cbv zeta in E. destruct (st_send _ (User u) (PoolReserve _) dc) as [s3|] eqn:E3; [|discriminate E]. destruct (st_send s3 _ _ _) as [s4|] eqn:E4; [|discriminate E]. destruct (new_coins _) as [pc|] eqn:Em; [|discriminate E].
    pose proof (send_pools _ _ _ _ _ E) as E5. cbn [st_pools set_bank] in E5. rewrite (send_pools _ _ _ _ _ E4), (send_pools _ _ _ _ _ E3) in E5. refine (Y _ E5 eq_refl). }
  destruct m; cbn [handle] in H.
  - apply X. unfold create_pair in H. cbv zeta in H. destruct (match st_pidx s _ _ with Some _ => _ | None => _ end); [discriminate H|]. destruct (st_send _ _ _ _) as [s1|] eqn:E; [|discriminate H]. injection H as <-. exact (send_pools _ _ _ _ _ E).
  - unfold create_pool in H. destruct (get_pair s i) as [pr|]; [|discriminate H]. destruct (existsb _ _); [discriminate H|]. destruct (existsb _ _); [discriminate H|]. destruct (_ <=? _); [discriminate H|].
    destruct (of_res _) as [[ap|]|]; [|discriminate H|discriminate H]. exact (T _ _ _ _ _ H).
  - unfold create_rpool in H. cbv zeta in H. destruct (of_res _) as [x|]; [|discriminate H]. destruct (of_res _) as [y|] in H; [|discriminate H]. destruct (of_res _) as [z|] in H; [|discriminate H]. destruct (negb _); [discriminate H|].
    destruct (lowest_tick_chk _) as [lt|]; [|discriminate H]. destruct (_ <? _); [discriminate H|]. destruct (get_pair s i) as [pr|]; [|discriminate H]. destruct (existsb _ _); [discriminate H|]. destruct (_ <=? _); [discriminate H|].
    destruct (of_res _) as [[ap|]|] in H; [|discriminate H|discriminate H]. destruct (_ && _); [discriminate H|]. destruct (new_coins _) as [dc|]; [|discriminate H]. exact (T _ _ _ _ _ H).
  - unfold deposit_msg in H. destruct (get_pool s i) as [p|] eqn:Gi; [|discriminate H]. destruct (pl_disabled p) eqn:Dp; [discriminate H|]. destruct (match pl_kind p with PBasic => _ | _ => _ end); [discriminate H|]. destruct (get_pair _ _) as [pr|]; [|discriminate H].
    destruct (existsb _ _); [discriminate H|]. destruct (_ <? _); [discriminate H|]. destruct (_ <? _); [discriminate H|]. destruct (st_send _ _ _ _) as [s1|] eqn:E; [|discriminate H]. cbv zeta in H. injection H as <-.
    refine (Y (mkPool _ _ _ _ _ _ _) _ _); [cbn [st_pools put_dep set_deps put_pool set_pools pl_id]; rewrite (send_pools _ _ _ _ _ E); reflexivity|first [exact Dp|reflexivity]].
  - unfold withdraw_msg in H. destruct (get_pool s i) as [p|] eqn:Gi; [|discriminate H]. destruct (pl_disabled p) eqn:Dp; [discriminate H|]. destruct (negb _); [discriminate H|]. destruct (st_send _ _ _ _) as [s1|] eqn:E; [|discriminate H]. cbv zeta in H. injection H as <-.
    refine (Y (mkPool _ _ _ _ _ _ _) _ _); [cbn [st_pools put_wd set_wds put_pool set_pools pl_id]; rewrite (send_pools _ _ _ _ _ E); reflexivity|first [exact Dp|reflexivity]].
  - exact (X (PL _ _ _ _ _ _ _ _ _ _ _ H)).
  - exact (X (PL _ _ _ _ _ _ _ _ _ _ _ H)).
  - unfold mm_order in H. cbv zeta in H. destruct (_ <=? _); [discriminate H|]. destruct (place_order _ _ _ _ _ _ _ _ _ _ _) as [s1|] eqn:E; [|discriminate H]. injection H as <-. exact (X (PL _ _ _ _ _ _ _ _ _ _ _ E)).
  - apply X. unfold cancel_order in H. destruct (get_order s i j) as [o|]; [|discriminate H]. destruct (negb _); [discriminate H|]. destruct (match ko_status o with OCanceled => true | _ => false end); [discriminate H|]. cbv zeta in H. destruct (_ =? _); [discriminate H|]. exact (finish_pools _ _ _ _ H).
  - apply X. unfold cancel_all in H. destruct (existsb _ _) in H; [discriminate H|]. clear -H. revert H. generalize (map fst (st_oidx s (User u))). intros l. revert s. induction l as [|[a b] l IH]; intros s H; cbn [for_each] in H; [injection H as <-; reflexivity|].
    destruct (cancel_one ids (a, b) s) as [y|] eqn:E; [|discriminate H]. rewrite (IH _ H). unfold cancel_one in E. cbn [fst snd] in E. destruct (get_order s a b) as [o|]; [|discriminate E].
    destruct (_ || _); [|injection E as <-; reflexivity]. cbv zeta in E. destruct (_ && _); [exact (finish_pools _ _ _ _ E)|injection E as <-; reflexivity].
  - apply X. destruct (valid_params p); [|discriminate H]. injection H as <-. reflexivity.
  - apply X. exact (send_pools _ _ _ _ _ H).
Qed.
