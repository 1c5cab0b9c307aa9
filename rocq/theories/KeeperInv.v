(** Invariants of histories: identifiers, one-way changes of orders and requests, escrow of pending
    requests, market making counters, pool population, coin supply. *)
From Verif Require Import Base Dec OrderModel MatchModel PoolModel PoolProofs KeeperModel KeeperLib KeeperSpec KeeperMicro KeeperBank KeeperSteps KeeperReqs KeeperTrade MatchProofs.
From Coq Require Import Permutation.

(** ** Effect of one elementary step on each table *)
Definition orders_effect (Q : ctl) (s s' : state) : Prop :=
  st_orders s' = st_orders s
  \/ (stage_of Q = SMsg /\ exists pr o, get_pair s (pr_id pr) = Some pr /\ ko_pair o = pr_id pr /\ ko_id o = pr_last_order pr + 1 /\ ko_status o = ONotExecuted /\ ko_open o = ko_amt o /\
        ko_remaining o = ko_offer o /\ ko_received o = 0 /\ st_orders s' = mset (st_orders s) (ko_pair o, ko_id o) o)
  \/ (exists o o', get_order s (ko_pair o) (ko_id o) = Some o /\ live o = true /\ order_later o o' /\ stage_of Q <> SBegin /\
        (stage_of Q = STrade \/ (ko_remaining o' = ko_remaining o /\ ko_received o' = ko_received o /\ ko_open o' = ko_open o)) /\
        (stage_of Q = SMsg <-> ko_status o' = OCanceled) /\
        st_orders s' = mset (st_orders s) (ko_pair o', ko_id o') o')
  \/ (stage_of Q = SBegin /\ st_orders s' = filter (fun kv => negb (o_terminal (ko_status (snd kv)))) (st_orders s)).
Definition deps_effect (Q : ctl) (s s' : state) : Prop :=
  st_deps s' = st_deps s
  \/ (stage_of Q = SMsg /\ exists p r, get_pool s (pl_id p) = Some p /\ dr_pool r = pl_id p /\ dr_id r = pl_last_dep p + 1 /\ dr_status r = RNotExecuted /\
        st_deps s' = mset (st_deps s) (dr_pool r, dr_id r) r)
  \/ (stage_of Q = SReq /\ exists r r', mget (st_deps s) (dr_pool r, dr_id r) = Some r /\ dr_status r = RNotExecuted /\ pending (dr_status r') = false /\ dep_later r r' /\
        st_deps s' = mset (st_deps s) (dr_pool r', dr_id r') r')
  \/ (stage_of Q = SBegin /\ st_deps s' = filter (fun kv => negb (r_should_be_deleted (dr_status (snd kv)))) (st_deps s)).
Definition wds_effect (Q : ctl) (s s' : state) : Prop :=
  st_wds s' = st_wds s
  \/ (stage_of Q = SMsg /\ exists p r, get_pool s (pl_id p) = Some p /\ wr_pool r = pl_id p /\ wr_id r = pl_last_wd p + 1 /\ wr_status r = RNotExecuted /\
        st_wds s' = mset (st_wds s) (wr_pool r, wr_id r) r)
  \/ (stage_of Q = SReq /\ exists r r', mget (st_wds s) (wr_pool r, wr_id r) = Some r /\ wr_status r = RNotExecuted /\ pending (wr_status r') = false /\ wd_later r r' /\
        st_wds s' = mset (st_wds s) (wr_pool r', wr_id r') r')
  \/ (stage_of Q = SBegin /\ st_wds s' = filter (fun kv => negb (r_should_be_deleted (wr_status (snd kv)))) (st_wds s)).
Definition pairs_effect (Q : ctl) (s s' : state) : Prop :=
  (st_pairs s' = st_pairs s /\ st_last_pair s' = st_last_pair s)
  \/ (exists p, pr_id p = st_last_pair s + 1 /\ st_last_pair s' = st_last_pair s + 1 /\ st_pairs s' = mset (st_pairs s) (pr_id p, 0) p)
  \/ (exists p p', get_pair s (pr_id p) = Some p /\ pair_later p p' /\ st_last_pair s' = st_last_pair s /\ st_pairs s' = mset (st_pairs s) (pr_id p', 0) p').
Definition pools_effect (Q : ctl) (s s' : state) : Prop :=
  (st_pools s' = st_pools s /\ st_last_pool s' = st_last_pool s /\ st_plidx s' = st_plidx s)
  \/ (stage_of Q = SMsg /\ exists p, pl_id p = st_last_pool s + 1 /\ pl_disabled p = false /\ num_active s (pl_pair p) < pm_max_pools (st_params s) /\
        (pl_kind p = PBasic -> existsb active_basic (pools_of_pair s (pl_pair p)) = false) /\
        st_last_pool s' = st_last_pool s + 1 /\ st_pools s' = mset (st_pools s) (pl_id p, 0) p)
  \/ (exists p p', get_pool s (pl_id p) = Some p /\ pool_later p p' /\ st_last_pool s' = st_last_pool s /\ st_plidx s' = st_plidx s /\ st_pools s' = mset (st_pools s) (pl_id p', 0) p').

Ltac norm_send := repeat match goal with H : st_send _ _ _ _ = Some _ |- _ => apply st_send_spec in H; destruct H as (?b & -> & ?Es) end.

Lemma order_later_refl o : order_later o o.
Proof. unfold order_later. repeat match goal with |- _ /\ _ => split end; solve [reflexivity|lia|auto|congruence]. Qed.
Lemma order_later_trans a b c : order_later a b -> order_later b c -> order_later a c.
Proof.
  intros (A1 & A2 & A3 & A4 & A5 & A6 & A7 & A8 & A9 & A10 & A11 & A12 & A13 & A14 & A15 & A16 & A17 & A18 & A19) (B1 & B2 & B3 & B4 & B5 & B6 & B7 & B8 & B9 & B10 & B11 & B12 & B13 & B14 & B15 & B16 & B17 & B18 & B19).
  unfold order_later. repeat (split; [first [congruence|lia]|]). split; [|split].
  - intros L. pose proof (A17 L). subst b. exact (B17 L).
  - auto.
  - intros E. destruct (ko_status b) eqn:Eb; try (destruct (B19 eq_refl); fail).
    + discriminate (eq_trans (eq_sym (A18 eq_refl)) E).
    + destruct (A19 E). reflexivity.
    + exact (B19 eq_refl).
    + assert (c = b) as -> by (apply B17; unfold live; rewrite Eb; reflexivity). congruence.
    + assert (c = b) as -> by (apply B17; unfold live; rewrite Eb; reflexivity). congruence.
    + assert (c = b) as -> by (apply B17; unfold live; rewrite Eb; reflexivity). congruence.
Qed.
Lemma dep_later_refl r : dep_later r r.
Proof. unfold dep_later. auto 10. Qed.
Lemma dep_later_trans a b c : dep_later a b -> dep_later b c -> dep_later a c.
Proof.
  intros (A1 & A2 & A3 & A4 & A5 & A6) (B1 & B2 & B3 & B4 & B5 & B6). unfold dep_later. repeat (split; [congruence|]). intros [H|H].
  - pose proof (A6 (or_introl H)); subst b; auto.
  - pose proof (B6 (or_intror H)); subst c; auto.
Qed.
Lemma wd_later_refl r : wd_later r r.
Proof. unfold wd_later. auto 10. Qed.
Lemma wd_later_trans a b c : wd_later a b -> wd_later b c -> wd_later a c.
Proof.
  intros (A1 & A2 & A3 & A4 & A5 & A6 & A7) (B1 & B2 & B3 & B4 & B5 & B6 & B7). unfold wd_later. repeat (split; [congruence|]). intros [H|H].
  - pose proof (A7 (or_introl H)); subst b; auto.
  - pose proof (B7 (or_intror H)); subst c; auto.
Qed.
Lemma pair_later_refl p : pair_later p p.
Proof. unfold pair_later. repeat (split; [first [reflexivity|lia]|]). auto. Qed.
Lemma pair_later_trans a b c : pair_later a b -> pair_later b c -> pair_later a c.
Proof. unfold pair_later. intros (A1 & A2 & A3 & A4 & A5 & A6) (B1 & B2 & B3 & B4 & B5 & B6). repeat (split; [first [congruence|lia]|]). auto. Qed.
Lemma pool_later_refl p : pool_later p p.
Proof. unfold pool_later. repeat (split; [first [reflexivity|lia]|]). auto. Qed.
Lemma pool_later_trans a b c : pool_later a b -> pool_later b c -> pool_later a c.
Proof. unfold pool_later. intros (A1 & A2 & A3 & A4 & A5 & A6 & A7) (B1 & B2 & B3 & B4 & B5 & B6 & B7). repeat (split; [first [congruence|lia]|]). auto. Qed.

Lemma orders_mic Q s s' : mic Q s s' -> orders_effect Q s s'.
Proof.
  intros M. unfold orders_effect. destruct M; norm_send; try (left; reflexivity).
  - right; left. split; [assumption|].
    exists pr, (mkKOrder typ (pr_last_order pr + 1) (pr_id pr) (st_height s) (User u) d (offer_denom_of pr d) (offer_coin_amount d price amt) (offer_coin_amount d price amt) (demand_denom_of pr d) 0
                   price amt amt (pr_batch pr) (st_time s + lifespan) ONotExecuted).
    cbn [ko_pair ko_id ko_status ko_open ko_amt ko_remaining ko_offer ko_received]. repeat (split; [first [assumption|reflexivity]|]). destruct typ; reflexivity.
  - right; right; left. exists o. eexists. split; [eassumption|]. split; [assumption|]. split; [|split; [|split; [|split; [|reflexivity]]]].
    + unfold order_later. cbn. repeat match goal with |- _ /\ _ => split end; try reflexivity; try lia; intros X;
      first [change (live o = false) in X; congruence|destruct H5 as [->|[-> E]]; congruence].
    + destruct H6 as [X|[X _]]; congruence.
    + cbn. destruct H6 as [X|(_ & X)]; auto.
    + cbn. split; [destruct H6 as [Y|[Y _]]; congruence|]. destruct H5 as [->|[-> _]]; discriminate.
  - destruct (finish_order_spec _ _ _ _ H2 H0) as (b & _ & ->). right; right; left. exists o, (ko_with_status o st). split; [eassumption|]. split; [assumption|]. split; [|split; [|split; [|split]]].
    + unfold order_later. cbn. repeat match goal with |- _ /\ _ => split end; try reflexivity; try lia; intros X;
      first [change (live o = false) in X; congruence|destruct st; try discriminate H1; congruence].
    + apply H3.
    + right. auto.
    + apply H3.
    + destruct (ko_type o); reflexivity.
  - right; right; right. split; [assumption|]. destruct (delete_outdated_eq s) as (f & -> & _). reflexivity.
Qed.
Lemma deps_mic Q s s' : mic Q s s' -> deps_effect Q s s'.
Proof.
  intros M. unfold deps_effect. destruct M; norm_send; try (left; reflexivity).
  - right; left. split; [assumption|]. exists p, (mkDreq (pl_last_dep p + 1) (pl_id p) (st_height s) (User u) cs [] 0 RNotExecuted). cbn. auto 10.
  - left. destruct typ; reflexivity.
  - left. destruct (finish_order_spec _ _ _ _ H2 H0) as (b & _ & ->). destruct (ko_type o); reflexivity.
  - right; right; left. split; [assumption|]. exists r. eexists. split; [eassumption|]. split; [assumption|]. split; [|split; [|reflexivity]]; [reflexivity|].
    unfold dep_later, dr_with. cbn. repeat (split; [reflexivity|]). rewrite H0. cbn. intros [X|X]; discriminate X.
  - right; right; left. split; [assumption|]. exists r. eexists. split; [eassumption|]. split; [assumption|]. split; [|split; [|reflexivity]]; [reflexivity|].
    unfold dep_later, dr_with. cbn. repeat (split; [reflexivity|]). rewrite H0. cbn. intros [X|X]; discriminate X.
  - right; right; right. split; [assumption|]. destruct (delete_outdated_eq s) as (f & -> & _). reflexivity.
Qed.
Lemma wds_mic Q s s' : mic Q s s' -> wds_effect Q s s'.
Proof.
  intros M. unfold wds_effect. destruct M; norm_send; try (left; reflexivity).
  - right; left. split; [assumption|]. exists p, (mkWreq (pl_last_wd p + 1) (pl_id p) (st_height s) (User u) (PoolCoin (pl_id p)) x [] RNotExecuted). cbn. auto 10.
  - left. destruct typ; reflexivity.
  - left. destruct (finish_order_spec _ _ _ _ H2 H0) as (b & _ & ->). destruct (ko_type o); reflexivity.
  - right; right; left. split; [assumption|]. exists r. eexists. split; [eassumption|]. split; [assumption|]. split; [|split; [|reflexivity]]; [reflexivity|].
    unfold wd_later, wr_with. cbn. repeat (split; [reflexivity|]). rewrite H0. cbn. intros [X|X]; discriminate X.
  - right; right; left. split; [assumption|]. exists r. eexists. split; [eassumption|]. split; [assumption|]. split; [|split; [|reflexivity]]; [reflexivity|].
    unfold wd_later, wr_with. cbn. repeat (split; [reflexivity|]). rewrite H0. cbn. intros [X|X]; discriminate X.
  - right; right; right. split; [assumption|]. destruct (delete_outdated_eq s) as (f & -> & _). reflexivity.
Qed.
Lemma pairs_mic Q s s' : mic Q s s' -> pairs_effect Q s s'.
Proof.
  intros M. unfold pairs_effect. destruct M; norm_send; try (left; split; reflexivity).
  - right; left. eexists. split; [|split; [|reflexivity]]; reflexivity.
  - right; right. exists pr. eexists (mkPair (pr_id pr) (pr_base pr) (pr_quote pr) (pr_last_order pr + 1) (pr_last_price pr) (pr_batch pr)). split; [assumption|].
    split; [unfold pair_later; cbn; repeat (split; [first [reflexivity|lia]|]); auto|]. destruct typ; split; reflexivity.
  - left. destruct (finish_order_spec _ _ _ _ H2 H0) as (b & _ & ->). destruct (ko_type o); split; reflexivity.
  - right; right. exists pr. eexists. split; [assumption|]. split; [|split; reflexivity]. unfold pair_later. cbn. repeat (split; [first [reflexivity|lia]|]).
    destruct H0 as [->|(p & -> & _)]; [auto|discriminate].
  - left. destruct (delete_outdated_eq s) as (f & -> & _). split; reflexivity.
Qed.
Lemma pools_mic Q s s' : mic Q s s' -> pools_effect Q s s'.
Proof.
  intros M. unfold pools_effect. destruct M; norm_send; try (left; split; [|split]; reflexivity).
  - right; left. split; [assumption|]. eexists (mkPool (st_last_pool s + 1) i kind (User u) 0 0 false). cbn. auto 10.
  - right; right. exists p. eexists. split; [assumption|]. split; [|split; [|split; reflexivity]]; [|reflexivity]. unfold pool_later. cbn. repeat (split; [first [reflexivity|lia]|]). auto.
  - right; right. exists p. eexists. split; [assumption|]. split; [|split; [|split; reflexivity]]; [|reflexivity]. unfold pool_later. cbn. repeat (split; [first [reflexivity|lia]|]). auto.
  - right; right. exists p. eexists. split; [assumption|]. split; [|split; [|split; reflexivity]]; [|reflexivity]. unfold pool_later. cbn. repeat (split; [first [reflexivity|lia]|]). auto.
  - left. destruct typ; split; [| split | | split | | split]; reflexivity.
  - left. destruct (finish_order_spec _ _ _ _ H2 H0) as (b & _ & ->). destruct (ko_type o); split; [| split | | split | | split]; reflexivity.
  - left. destruct (delete_outdated_eq s) as (f & -> & _). split; [|split]; reflexivity.
Qed.

(** ** Later states *)
Lemma clock_mic Q s s' : mic Q s s' -> st_height s <= st_height s' /\ st_time s <= st_time s'.
Proof.
  intros M. destruct M; norm_send; try (cbn; lia).
  - destruct typ; cbn; lia.
  - destruct (finish_order_spec _ _ _ _ H2 H0) as (b & _ & ->). destruct (ko_type o); cbn; lia.
  - destruct (delete_outdated_eq s) as (f & -> & _). cbn. lia.
Qed.

Lemma later_refl s : str s -> later s s.
Proof.
  intros S. constructor; try lia.
  - intros i p H. exists p. split; [assumption|apply pair_later_refl].
  - intros i p H. left. congruence.
  - intros i p H. exists p. split; [assumption|apply pool_later_refl].
  - intros i p H. left. congruence.
  - intros i j o H. left. exists o. split; [assumption|apply order_later_refl].
  - intros i j o H. left. exists o. split; [assumption|apply dep_later_refl].
  - intros i j o H. left. exists o. split; [assumption|apply wd_later_refl].
Qed.
Lemma later_trans a b c : str a -> later a b -> later b c -> later a c.
Proof.
  intros S [A1 A2 A3 A4 A5 A6 A7 A8 A9 A10] [B1 B2 B3 B4 B5 B6 B7 B8 B9 B10]. constructor; try lia.
  - intros i p H. destruct (A4 i p H) as (p1 & H1 & L1). destruct (B4 i p1 H1) as (p2 & H2 & L2). exists p2. split; [assumption|]. eapply pair_later_trans; eassumption.
  - intros i p H. destruct (B5 i p H) as [X|X]; [|right; lia]. destruct (get_pair b i) as [q|] eqn:E; [|congruence]. destruct (A5 i q E) as [Y|Y]; [left; assumption|right; lia].
  - intros i p H. destruct (A6 i p H) as (p1 & H1 & L1). destruct (B6 i p1 H1) as (p2 & H2 & L2). exists p2. split; [assumption|]. eapply pool_later_trans; eassumption.
  - intros i p H. destruct (B7 i p H) as [X|X]; [|right; lia]. destruct (get_pool b i) as [q|] eqn:E; [|congruence]. destruct (A7 i q E) as [Y|Y]; [left; assumption|right; lia].
  - intros i j o H. destruct (B8 i j o H) as [(o1 & H1 & L1)|[N1 L1]].
    + destruct (A8 i j o1 H1) as [(o2 & H2 & L2)|X]; [left|right; assumption]. exists o2. split; [assumption|]. eapply order_later_trans; eassumption.
    + right. assert (X : forall pr, get_pair a i = Some pr -> pr_last_order pr < j).
      { intros pr Hp. destruct (A4 i pr Hp) as (pr1 & H1 & L). specialize (L1 pr1 H1). unfold pair_later in L. lia. }
      split; [|assumption]. destruct (get_order a i j) as [q|] eqn:E; [exfalso|reflexivity].
      destruct (i_orders _ S _ _ E) as (Ek & pr & Hp & Ok). injection Ek as E1 E2. rewrite <- E1 in Hp. specialize (X pr Hp). unfold order_ok in Ok. lia.
  - intros i j o H. destruct (B9 i j o H) as [(o1 & H1 & L1)|[N1 L1]].
    + destruct (A9 i j o1 H1) as [(o2 & H2 & L2)|X]; [left|right; assumption]. exists o2. split; [assumption|]. eapply dep_later_trans; eassumption.
    + right. assert (X : forall p, get_pool a i = Some p -> pl_last_dep p < j).
      { intros p Hp. destruct (A6 i p Hp) as (p1 & H1 & L). specialize (L1 p1 H1). unfold pool_later in L. lia. }
      split; [|assumption]. destruct (mget (st_deps a) (i, j)) as [q|] eqn:E; [exfalso|reflexivity].
      destruct (i_deps _ S _ _ E) as (Ek & (p & Hp & Ok & _) & _). injection Ek as E1 E2. rewrite <- E1 in Hp. specialize (X p Hp). lia.
  - intros i j o H. destruct (B10 i j o H) as [(o1 & H1 & L1)|[N1 L1]].
    + destruct (A10 i j o1 H1) as [(o2 & H2 & L2)|X]; [left|right; assumption]. exists o2. split; [assumption|]. eapply wd_later_trans; eassumption.
    + right. assert (X : forall p, get_pool a i = Some p -> pl_last_wd p < j).
      { intros p Hp. destruct (A6 i p Hp) as (p1 & H1 & L). specialize (L1 p1 H1). unfold pool_later in L. lia. }
      split; [|assumption]. destruct (mget (st_wds a) (i, j)) as [q|] eqn:E; [exfalso|reflexivity].
      destruct (i_wds _ S _ _ E) as (Ek & (p & Hp & Ok) & _). injection Ek as E1 E2. rewrite <- E1 in Hp. specialize (X p Hp). lia.
Qed.

Theorem later_mic Q s s' : mic Q s s' -> str s -> later s s'.
Proof.
  intros M S. pose proof (orders_mic _ _ _ M) as EO. pose proof (deps_mic _ _ _ M) as ED. pose proof (wds_mic _ _ _ M) as EW.
  pose proof (pairs_mic _ _ _ M) as EP. pose proof (pools_mic _ _ _ M) as EL.
  assert (KP : forall m (p : pair) i, mget (mset m (pr_id p, 0) p) (i, 0) = if i =? pr_id p then Some p else mget m (i, 0)).
  { intros m p i. rewrite mget_mset. unfold key_eqb. cbn [fst snd]. rewrite andb_true_r. reflexivity. }
  assert (KL : forall m (p : kpool) i, mget (mset m (pl_id p, 0) p) (i, 0) = if i =? pl_id p then Some p else mget m (i, 0)).
  { intros m p i. rewrite mget_mset. unfold key_eqb. cbn [fst snd]. rewrite andb_true_r. reflexivity. }
  constructor.
  - exact (clock_mic _ _ _ M).
  - destruct EP as [[_ E]|[(p & _ & E & _)|(p & p' & _ & _ & E & _)]]; lia.
  - destruct EL as [(_ & E & _)|[(_ & p & _ & _ & _ & _ & E & _)|(p & p' & _ & _ & E & _)]]; lia.
  - intros i p H. unfold get_pair in *. destruct EP as [[E _]|[(q & Eq & _ & E)|(q & q' & G & L & _ & E)]]; rewrite E.
    + exists p. split; [assumption|apply pair_later_refl].
    + rewrite KP. destruct (Z.eqb_spec i (pr_id q)) as [->|]; [|exists p; split; [assumption|apply pair_later_refl]].
      exfalso. destruct (i_pairs _ S _ _ H) as (Ek & B & _). injection Ek as Ek. lia.
    + rewrite KP. destruct (Z.eqb_spec i (pr_id q')) as [->|]; [|exists p; split; [assumption|apply pair_later_refl]].
      exists q'. split; [reflexivity|]. pose proof (proj1 L) as E1. rewrite E1 in H. unfold get_pair in G. rewrite G in H. injection H as <-. assumption.
  - intros i p H. unfold get_pair in *. destruct EP as [[E _]|[(q & Eq & El & E)|(q & q' & G & L & _ & E)]]; rewrite E in H.
    + left. congruence.
    + rewrite KP in H. destruct (Z.eqb_spec i (pr_id q)) as [->|]; [right; lia|left; congruence].
    + rewrite KP in H. destruct (Z.eqb_spec i (pr_id q')) as [->|]; [|left; congruence]. left. rewrite (proj1 L). unfold get_pair in G. congruence.
  - intros i p H. unfold get_pool in *. destruct EL as [(E & _)|[(_ & q & Eq & _ & _ & _ & _ & E)|(q & q' & G & L & _ & _ & E)]]; rewrite E.
    + exists p. split; [assumption|apply pool_later_refl].
    + rewrite KL. destruct (Z.eqb_spec i (pl_id q)) as [->|]; [|exists p; split; [assumption|apply pool_later_refl]].
      exfalso. destruct (i_pools _ S _ _ H) as (Ek & B & _). injection Ek as Ek. lia.
    + rewrite KL. destruct (Z.eqb_spec i (pl_id q')) as [->|]; [|exists p; split; [assumption|apply pool_later_refl]].
      exists q'. split; [reflexivity|]. pose proof (proj1 L) as E1. rewrite E1 in H. unfold get_pool in G. rewrite G in H. injection H as <-. assumption.
  - intros i p H. unfold get_pool in *. destruct EL as [(E & _)|[(_ & q & Eq & _ & _ & _ & El & E)|(q & q' & G & L & _ & _ & E)]]; rewrite E in H.
    + left. congruence.
    + rewrite KL in H. destruct (Z.eqb_spec i (pl_id q)) as [->|]; [right; lia|left; congruence].
    + rewrite KL in H. destruct (Z.eqb_spec i (pl_id q')) as [->|]; [|left; congruence]. left. rewrite (proj1 L). unfold get_pool in G. congruence.
  - intros i j o' H. unfold get_order in *. destruct EO as [E|[(_ & pr & o & Gp & E1 & E2 & _ & _ & _ & _ & E)|[(o & o2 & G & L & La & _ & _ & _ & E)|(_ & E)]]]; rewrite E in H.
    + left. exists o'. split; [assumption|apply order_later_refl].
    + rewrite mget_mset in H. destruct (key_eqb_spec (i, j) (ko_pair o, ko_id o)) as [Ek|]; [|left; exists o'; split; [assumption|apply order_later_refl]].
      injection Ek as -> ->. right. assert (X : forall p, get_pair s (ko_pair o) = Some p -> pr_last_order p < ko_id o) by (intros p Hp; rewrite E1, Gp in Hp; injection Hp as <-; lia).
      split; [|assumption]. destruct (mget (st_orders s) (ko_pair o, ko_id o)) as [q|] eqn:Eq; [exfalso|reflexivity].
      destruct (i_orders _ S _ _ Eq) as (Ek & p & Hp & Ok). injection Ek as K1 K2. rewrite <- K1 in Hp. specialize (X p Hp). unfold order_ok in Ok. lia.
    + rewrite mget_mset in H. destruct (key_eqb_spec (i, j) (ko_pair o2, ko_id o2)) as [Ek|]; [|left; exists o'; split; [assumption|apply order_later_refl]].
      injection Ek as -> ->. injection H as <-. left. exists o. pose proof La as (_ & F1 & F2 & _). rewrite F1, F2. split; assumption.
    + rewrite mget_filter in H by (apply msorted_NoDup; apply (i_orders_sorted _ S)). destruct (mget (st_orders s) (i, j)) as [o|] eqn:G; [|discriminate H].
      destruct (negb _); [|discriminate H]. injection H as <-. left. exists o. split; [reflexivity|apply order_later_refl].
  - intros i j r' H. destruct ED as [E|[(_ & p & r & Gp & E1 & E2 & _ & E)|[(_ & r & r2 & G & _ & _ & La & E)|(_ & E)]]]; rewrite E in H.
    + left. exists r'. split; [assumption|apply dep_later_refl].
    + rewrite mget_mset in H. destruct (key_eqb_spec (i, j) (dr_pool r, dr_id r)) as [Ek|]; [|left; exists r'; split; [assumption|apply dep_later_refl]].
      injection Ek as -> ->. right. assert (X : forall q, get_pool s (dr_pool r) = Some q -> pl_last_dep q < dr_id r) by (intros q Hq; rewrite E1, Gp in Hq; injection Hq as <-; lia).
      split; [|assumption]. destruct (mget (st_deps s) (dr_pool r, dr_id r)) as [q|] eqn:Eq; [exfalso|reflexivity].
      destruct (i_deps _ S _ _ Eq) as (Ek & (q2 & Hp & Ok & _) & _). injection Ek as K1 K2. rewrite <- K1 in Hp. specialize (X q2 Hp). lia.
    + rewrite mget_mset in H. destruct (key_eqb_spec (i, j) (dr_pool r2, dr_id r2)) as [Ek|]; [|left; exists r'; split; [assumption|apply dep_later_refl]].
      injection Ek as -> ->. injection H as <-. left. exists r. pose proof La as (F1 & F2 & _). rewrite F1, F2. split; assumption.
    + rewrite mget_filter in H by (apply msorted_NoDup; apply (i_deps_sorted _ S)). destruct (mget (st_deps s) (i, j)) as [o|] eqn:G; [|discriminate H].
      destruct (negb _); [|discriminate H]. injection H as <-. left. exists o. split; [reflexivity|apply dep_later_refl].
  - intros i j r' H. destruct EW as [E|[(_ & p & r & Gp & E1 & E2 & _ & E)|[(_ & r & r2 & G & _ & _ & La & E)|(_ & E)]]]; rewrite E in H.
    + left. exists r'. split; [assumption|apply wd_later_refl].
    + rewrite mget_mset in H. destruct (key_eqb_spec (i, j) (wr_pool r, wr_id r)) as [Ek|]; [|left; exists r'; split; [assumption|apply wd_later_refl]].
      injection Ek as -> ->. right. assert (X : forall q, get_pool s (wr_pool r) = Some q -> pl_last_wd q < wr_id r) by (intros q Hq; rewrite E1, Gp in Hq; injection Hq as <-; lia).
      split; [|assumption]. destruct (mget (st_wds s) (wr_pool r, wr_id r)) as [q|] eqn:Eq; [exfalso|reflexivity].
      destruct (i_wds _ S _ _ Eq) as (Ek & (q2 & Hp & Ok) & _). injection Ek as K1 K2. rewrite <- K1 in Hp. specialize (X q2 Hp). lia.
    + rewrite mget_mset in H. destruct (key_eqb_spec (i, j) (wr_pool r2, wr_id r2)) as [Ek|]; [|left; exists r'; split; [assumption|apply wd_later_refl]].
      injection Ek as -> ->. injection H as <-. left. exists r. pose proof La as (F1 & F2 & _). rewrite F1, F2. split; assumption.
    + rewrite mget_filter in H by (apply msorted_NoDup; apply (i_wds_sorted _ S)). destruct (mget (st_wds s) (i, j)) as [o|] eqn:G; [|discriminate H].
      destruct (negb _); [|discriminate H]. injection H as <-. left. exists o. split; [reflexivity|apply wd_later_refl].
Qed.
Lemma later_mics Q s s' : mics Q s s' -> str s -> later s s'.
Proof.
  intros M. induction M; intros S; [apply later_refl; assumption|]. eapply later_trans; [assumption|eapply later_mic; eassumption|]. apply IHM. eapply str_mic; eassumption.
Qed.
Lemma later_amics A s s' : amics A s s' -> okp A s -> later s s'.
Proof.
  intros M. induction M; intros I; [apply later_refl; exact (v_str _ _ I)|]. pose proof (okp_amic _ _ _ H I) as I2. destruct H as (st & H).
  eapply later_trans; [exact (v_str _ _ I)|exact (later_mic _ _ _ H (v_str _ _ I))|auto].
Qed.

(** ** Removal: only finished orders and requests disappear, and only in the begin blocker *)
Lemma kept_mic Q s s' : mic Q s s' -> str s -> stage_of Q <> SBegin ->
  (forall i j, get_order s i j <> None -> get_order s' i j <> None) /\
  (forall k, mget (st_deps s) k <> None -> mget (st_deps s') k <> None) /\ (forall k, mget (st_wds s) k <> None -> mget (st_wds s') k <> None).
Proof.
  intros M S N. pose proof (orders_mic _ _ _ M) as EO. pose proof (deps_mic _ _ _ M) as ED. pose proof (wds_mic _ _ _ M) as EW.
  assert (K : forall V (m : amap V) k v k', mget m k' <> None -> mget (mset m k v) k' <> None) by (intros V m k v k' H; rewrite mget_mset; destruct (key_eqb _ _); [discriminate|assumption]).
  split; [|split].
  - intros i j. unfold get_order. destruct EO as [E|[(_ & pr & o & _ & _ & _ & _ & _ & _ & _ & E)|[(o & o2 & _ & _ & _ & _ & _ & _ & E)|(X & E)]]]; [rewrite E; auto|rewrite E; apply K..|congruence].
  - intros k. destruct ED as [E|[(_ & p & r & _ & _ & _ & _ & E)|[(_ & r & r2 & _ & _ & _ & _ & E)|(X & E)]]]; [rewrite E; auto|rewrite E; apply K..|congruence].
  - intros k. destruct EW as [E|[(_ & p & r & _ & _ & _ & _ & E)|[(_ & r & r2 & _ & _ & _ & _ & E)|(X & E)]]]; [rewrite E; auto|rewrite E; apply K..|congruence].
Qed.
Lemma kept_mics Q s s' : mics Q s s' -> str s -> stage_of Q <> SBegin ->
  (forall i j, get_order s i j <> None -> get_order s' i j <> None) /\
  (forall k, mget (st_deps s) k <> None -> mget (st_deps s') k <> None) /\ (forall k, mget (st_wds s) k <> None -> mget (st_wds s') k <> None).
Proof.
  intros M. induction M; intros S N; [auto|]. destruct (kept_mic _ _ _ H S N) as (A & B & C). destruct (IHM (str_mic _ _ _ H S) N) as (A' & B' & C'). auto.
Qed.

(** ** The global escrow covers the pending requests *)
Definition dep_due (d : denom) (r : dreq) : Z := if pending (dr_status r) then amount_of (dr_coins r) d else 0.
Definition wd_due (d : denom) (r : wreq) : Z := if pending (wr_status r) && denom_eqb d (wr_denom r) then wr_amt r else 0.
Lemma requests_owed_eq s d : requests_owed s d = msum (dep_due d) (st_deps s) + msum (wd_due d) (st_wds s).
Proof. reflexivity. Qed.
(** What the global escrow holds above the pending requests. *)
Definition excess (s : state) (d : denom) : Z := bal (st_bank s) GlobalEscrow d - requests_owed s d.

Lemma excess_same s s' d : st_deps s' = st_deps s -> st_wds s' = st_wds s -> bal (st_bank s) GlobalEscrow d <= bal (st_bank s') GlobalEscrow d -> excess s d <= excess s' d.
Proof. intros E1 E2 E3. unfold excess. rewrite !requests_owed_eq, E1, E2. lia. Qed.
Lemma send_escrow b x y cs b' d : send b x y cs = Some b' -> x <> GlobalEscrow -> bal b GlobalEscrow d <= bal b' GlobalEscrow d.
Proof.
  intros H N. destruct (send_spec _ _ _ _ _ H) as (V & (M & _) & _). rewrite M. destruct (addr_eqb_spec GlobalEscrow x); [congruence|].
  pose proof (valid_amount_nonneg cs d V). destruct (addr_eqb _ y); lia.
Qed.
Lemma amount_sum1 d0 x d : amount_of [(d0, x)] d = if denom_eqb d d0 then x else 0.
Proof. reflexivity. Qed.

Theorem excess_mic Q s s' d : mic Q s s' -> str s -> excess s d <= excess s' d.
Proof.
  intros M S. destruct M; norm_send.
  - apply excess_same; [reflexivity|reflexivity|]. eapply send_escrow; [eassumption|discriminate].
  - apply excess_same; [reflexivity|reflexivity|]. eapply send_escrow; [eassumption|]. destruct from; discriminate || contradiction.
  - apply excess_same; [reflexivity|reflexivity|]. destruct H1 as [M _]. cbn. rewrite M. cbn. lia.
  - apply excess_same; [reflexivity|reflexivity|]. cbn. lia.
  - apply excess_same; [reflexivity|reflexivity|]. cbn. lia.
  - apply excess_same; [reflexivity|reflexivity|]. cbn. lia.
  - apply excess_same; [reflexivity|reflexivity|]. cbn. lia.
  - apply excess_same; [reflexivity|reflexivity|]. cbn. lia.
  - unfold excess. rewrite !requests_owed_eq. cbn [st_deps st_wds put_dep set_deps put_pool set_pools set_bank st_bank].
    rewrite (msum_mset _ _ _ _ (i_deps_sorted _ S)). cbn [dr_pool dr_id].
    assert (N : mget (st_deps s) (pl_id p, pl_last_dep p + 1) = None).
    { destruct (mget _ _) as [q|] eqn:E; [exfalso|reflexivity]. destruct (i_deps _ S _ _ E) as (Ek & (p2 & Hp & Ok & _) & _). injection Ek as K1 K2. rewrite <- K1, H in Hp. injection Hp as <-. lia. }
    rewrite N.
    match goal with |- context [dep_due d (mkDreq ?a ?b ?c ?e ?g ?h ?i ?j)] => change (dep_due d (mkDreq a b c e g h i j)) with (amount_of g d) end. destruct (send_spec _ _ _ _ _ Es) as (V & (Mb & _) & _). rewrite Mb. cbn [addr_eqb]. lia.
  - unfold excess. rewrite !requests_owed_eq. cbn [st_deps st_wds put_wd set_wds put_pool set_pools set_bank st_bank].
    rewrite (msum_mset _ _ _ _ (i_wds_sorted _ S)). cbn [wr_pool wr_id].
    assert (N : mget (st_wds s) (pl_id p, pl_last_wd p + 1) = None).
    { destruct (mget _ _) as [q|] eqn:E; [exfalso|reflexivity]. destruct (i_wds _ S _ _ E) as (Ek & (p2 & Hp & Ok) & _). injection Ek as K1 K2. rewrite <- K1, H in Hp. injection Hp as <-. lia. }
    rewrite N.
    match goal with |- context [wd_due d (mkWreq ?a ?b ?c ?e ?g ?h ?i ?j)] => change (wd_due d (mkWreq a b c e g h i j)) with (if denom_eqb d g then h else 0) end. destruct (send_spec _ _ _ _ _ Es) as (V & (Mb & _) & _). rewrite Mb, amount_sum1. cbn [addr_eqb]. lia.
  - apply excess_same; [destruct typ; reflexivity|destruct typ; reflexivity|].
    assert (X : bal (st_bank s) GlobalEscrow d <= bal b GlobalEscrow d) by (eapply send_escrow; [eassumption|discriminate]). destruct typ; exact X.
  - apply excess_same; [reflexivity|reflexivity|]. cbn. lia.
  - destruct (finish_order_spec _ _ _ _ H2 H0) as (b & Hb & ->). apply excess_same; [destruct (ko_type o); reflexivity|destruct (ko_type o); reflexivity|].
    assert (X : bal (st_bank s) GlobalEscrow d <= bal b GlobalEscrow d) by (destruct (0 <? ko_remaining o); [eapply send_escrow; [eassumption|discriminate]|subst b; lia]). destruct (ko_type o); exact X.
  - apply excess_same; [reflexivity|reflexivity|]. cbn. lia.
  - unfold excess. rewrite !requests_owed_eq. cbn [st_deps st_wds put_dep set_deps set_bank st_bank].
    rewrite (msum_mset _ _ _ _ (i_deps_sorted _ S)). cbn [dr_pool dr_id dr_with]. rewrite H.
    match goal with |- context [dep_due d (mkDreq ?a ?b ?c ?e ?g ?h ?i ?j)] => change (dep_due d (mkDreq a b c e g h i j)) with 0 | |- context [dep_due d (dr_with ?r ?a ?b ?c)] => change (dep_due d (dr_with r a b c)) with 0 end.
    replace (dep_due d r) with (amount_of (dr_coins r) d) by (unfold dep_due; rewrite H0; reflexivity).
    destruct (i_deps _ S _ _ H) as (_ & _ & _ & _ & (u & U) & _). destruct (send_spec _ _ _ _ _ Es) as (V & (Mb & _) & _). rewrite Mb, U. cbn [addr_eqb]. lia.
  - unfold excess. rewrite !requests_owed_eq. cbn [st_deps st_wds put_dep set_deps set_bank st_bank].
    rewrite (msum_mset _ _ _ _ (i_deps_sorted _ S)). cbn [dr_pool dr_id dr_with]. rewrite H.
    match goal with |- context [dep_due d (mkDreq ?a ?b ?c ?e ?g ?h ?i ?j)] => change (dep_due d (mkDreq a b c e g h i j)) with 0 | |- context [dep_due d (dr_with ?r ?a ?b ?c)] => change (dep_due d (dr_with r a b c)) with 0 end.
    replace (dep_due d r) with (amount_of (dr_coins r) d) by (unfold dep_due; rewrite H0; reflexivity).
    destruct (i_deps _ S _ _ H) as (_ & _ & _ & _ & (u & U) & _). destruct H2 as (_ & _ & _ & Mb & _). rewrite Mb, U. unfold at_acc. cbn [addr_eqb]. lia.
  - unfold excess. rewrite !requests_owed_eq. cbn [st_deps st_wds put_wd set_wds set_bank st_bank].
    rewrite (msum_mset _ _ _ _ (i_wds_sorted _ S)). cbn [wr_pool wr_id wr_with]. rewrite H.
    match goal with |- context [wd_due d (mkWreq ?a ?b ?c ?e ?g ?h ?i ?j)] => change (wd_due d (mkWreq a b c e g h i j)) with 0 | |- context [wd_due d (wr_with ?r ?a ?b)] => change (wd_due d (wr_with r a b)) with 0 end.
    replace (wd_due d r) with (if denom_eqb d (wr_denom r) then wr_amt r else 0) by (unfold wd_due; rewrite H0; reflexivity).
    destruct (i_wds _ S _ _ H) as (_ & _ & _ & _ & (u & U)). destruct (send_spec _ _ _ _ _ Es) as (V & (Mb & _) & _). rewrite Mb, U, amount_sum1. cbn [addr_eqb]. lia.
  - unfold excess. rewrite !requests_owed_eq. cbn [st_deps st_wds put_wd set_wds set_bank st_bank].
    rewrite (msum_mset _ _ _ _ (i_wds_sorted _ S)). cbn [wr_pool wr_id wr_with]. rewrite H.
    match goal with |- context [wd_due d (mkWreq ?a ?b ?c ?e ?g ?h ?i ?j)] => change (wd_due d (mkWreq a b c e g h i j)) with 0 | |- context [wd_due d (wr_with ?r ?a ?b)] => change (wd_due d (wr_with r a b)) with 0 end.
    replace (wd_due d r) with (if denom_eqb d (wr_denom r) then wr_amt r else 0) by (unfold wd_due; rewrite H0; reflexivity).
    destruct (i_wds _ S _ _ H) as (_ & _ & _ & _ & (u & U)). destruct H2 as (_ & _ & Mb & _). rewrite Mb, U. unfold at_acc, of_denom. cbn [addr_eqb]. lia.
  - unfold excess. rewrite !requests_owed_eq. rewrite delete_bank. destruct (delete_outdated_eq s) as (f & -> & _). cbn [st_deps st_wds set_oidx set_orders set_wds set_deps].
    rewrite !msum_filter; [lia| |].
    + intros kv _ X. unfold wd_due. destruct (wr_status (snd kv)); [discriminate X|reflexivity|reflexivity].
    + intros kv _ X. unfold dep_due. destruct (dr_status (snd kv)); [discriminate X|reflexivity|reflexivity].
Qed.

(** ** Market making counters *)
Definition mm_one (a : addr) (i : Z) (o : korder) : Z := if live o && addr_eqb a (ko_owner o) && (ko_pair o =? i) && match ko_type o with TMM => true | _ => false end then 1 else 0.
Definition mm_exact (s : state) : Prop := forall a i, st_mm s a i = live_mm_orders s a i.
Lemma mm_same s s' : st_orders s' = st_orders s -> st_mm s' = st_mm s -> mm_exact s -> mm_exact s'.
Proof. intros E1 E2 H a i. unfold live_mm_orders, order_sum. rewrite E1, E2. apply H. Qed.

Theorem mm_exact_mic Q s s' : mic Q s s' -> str s -> mm_exact s -> mm_exact s'.
Proof.
  intros M S X. destruct M; norm_send; try (apply (mm_same s); [reflexivity|reflexivity|assumption]).
  - assert (Fr : mget (st_orders s) (pr_id pr, pr_last_order pr + 1) = None).
    { destruct (mget _ _) as [q|] eqn:E; [exfalso|reflexivity]. destruct (i_orders _ S _ _ E) as (A & q2 & B & C). injection A as A1 A2. rewrite <- A1, H in B. injection B as <-. unfold order_ok in C. lia. }
    intros a i. specialize (X a i). change (st_mm s a i = msum (mm_one a i) (st_orders s)) in X.
    set (o := mkKOrder typ (pr_last_order pr + 1) (pr_id pr) (st_height s) (User u) d (offer_denom_of pr d) (offer_coin_amount d price amt) (offer_coin_amount d price amt) (demand_denom_of pr d) 0
                   price amt amt (pr_batch pr) (st_time s + lifespan) ONotExecuted).
    assert (E : msum (mm_one a i) (mset (st_orders s) (pr_id pr, pr_last_order pr + 1) o) = st_mm s a i + mm_one a i o).
    { rewrite (msum_mset _ _ _ _ (i_orders_sorted _ S)), Fr, X. lia. }
    assert (F : mm_one a i o = if addr_eqb a (User u) && (pr_id pr =? i) && match typ with TMM => true | _ => false end then 1 else 0) by reflexivity.
    rewrite F in E. clear F.
    destruct typ; rewrite ?andb_true_r, ?andb_false_r in E.
    + change (st_mm s a i = msum (mm_one a i) (mset (st_orders s) (pr_id pr, pr_last_order pr + 1) o)). lia.
    + change (st_mm s a i = msum (mm_one a i) (mset (st_orders s) (pr_id pr, pr_last_order pr + 1) o)). lia.
    + change ((if addr_eqb a (User u) && (i =? pr_id pr) then st_mm s (User u) (pr_id pr) + 1 else st_mm s a i) = msum (mm_one a i) (mset (st_orders s) (pr_id pr, pr_last_order pr + 1) o)).
      rewrite E, (Z.eqb_sym i). destruct (addr_eqb_spec a (User u)) as [->|]; cbn [andb]; [|lia]. destruct (Z.eqb_spec (pr_id pr) i) as [->|]; lia.
  - intros a i. specialize (X a i). change (st_mm s a i = msum (mm_one a i) (st_orders s)) in X.
    set (o' := ko_with_status (ko_with_fill o rem recv open) st).
    change (st_mm s a i = msum (mm_one a i) (mset (st_orders s) (ko_pair o, ko_id o) o')).
    rewrite (msum_mset _ _ _ _ (i_orders_sorted _ S)). unfold get_order in H. rewrite H.
    assert (E : mm_one a i o' = mm_one a i o) by (unfold mm_one; rewrite H0; unfold o', live; cbn; destruct H5 as [->|[-> _]]; reflexivity). lia.
  - destruct (finish_order_spec _ _ _ _ H2 H0) as (b & _ & ->). intros a i. pose proof (X (ko_owner o) (ko_pair o)) as X0. specialize (X a i).
    change (st_mm s a i = msum (mm_one a i) (st_orders s)) in X. change (st_mm s (ko_owner o) (ko_pair o) = msum (mm_one (ko_owner o) (ko_pair o)) (st_orders s)) in X0.
    unfold get_order in H.
    assert (E : msum (mm_one a i) (mset (st_orders s) (ko_pair o, ko_id o) (ko_with_status o st)) = st_mm s a i - mm_one a i o).
    { rewrite (msum_mset _ _ _ _ (i_orders_sorted _ S)), H, X. replace (mm_one a i (ko_with_status o st)) with 0 by (unfold mm_one, live; cbn; rewrite H1; reflexivity). lia. }
    assert (G : mm_one (ko_owner o) (ko_pair o) o <= st_mm s (ko_owner o) (ko_pair o)).
    { rewrite X0. apply (msum_ge1 _ _ (ko_pair o, ko_id o)); [|apply mget_In; assumption]. intros k v _. unfold mm_one. destruct (_ && _); lia. }
    assert (F : forall a i, mm_one a i o = if addr_eqb a (ko_owner o) && (ko_pair o =? i) && match ko_type o with TMM => true | _ => false end then 1 else 0) by (intros; unfold mm_one; rewrite H0; reflexivity).
    rewrite F in E, G. rewrite addr_eqb_refl, Z.eqb_refl in G. cbn [andb] in G. clear F.
    destruct (ko_type o).
    + change (st_mm s a i = msum (mm_one a i) (mset (st_orders s) (ko_pair o, ko_id o) (ko_with_status o st))). rewrite ?andb_false_r in E. lia.
    + change (st_mm s a i = msum (mm_one a i) (mset (st_orders s) (ko_pair o, ko_id o) (ko_with_status o st))). rewrite ?andb_false_r in E. lia.
    + change ((if addr_eqb a (ko_owner o) && (i =? ko_pair o) then (if st_mm s (ko_owner o) (ko_pair o) <=? 1 then 0 else st_mm s (ko_owner o) (ko_pair o) - 1) else st_mm s a i) =
        msum (mm_one a i) (mset (st_orders s) (ko_pair o, ko_id o) (ko_with_status o st))). rewrite E, andb_true_r, (Z.eqb_sym i).
      destruct (addr_eqb_spec a (ko_owner o)) as [->|]; cbn [andb]; [|lia]. destruct (Z.eqb_spec (ko_pair o) i) as [<-|]; [|lia].
      destruct (Z.leb_spec (st_mm s (ko_owner o) (ko_pair o)) 1); lia.
  - intros a i. specialize (X a i). change (st_mm s a i = msum (mm_one a i) (st_orders s)) in X. destruct (delete_outdated_eq s) as (f & -> & _).
    change (st_mm s a i = msum (mm_one a i) (filter (fun kv => negb (o_terminal (ko_status (snd kv)))) (st_orders s))). rewrite msum_filter; [assumption|].
    intros kv _ Hk. unfold mm_one, live. rewrite Hk. reflexivity.
Qed.

(** The counters stay below every bound on the configured maximum. *)
Theorem mm_bound_mic (Q : ctl) N s s' : (forall p, Q p -> pm_max_mm p <= N) -> mic Q s s' -> inv Q s -> mm_exact s -> (forall a i, st_mm s a i <= N) -> forall a i, st_mm s' a i <= N.
Proof.
  intros HQ M I E X a i. assert (P : 0 <= st_mm s a i).
  { rewrite E. unfold live_mm_orders, order_sum. apply sumZ_nonneg. intros x Hx. apply in_map_iff in Hx. destruct Hx as (y & <- & _). destruct (_ && _); lia. }
  pose proof (HQ _ (proj2 (v_params _ _ I))) as Mx.
  destruct M; norm_send; try apply X.
  - destruct typ; try apply X. cbn. destruct (addr_eqb_spec a (User u)) as [->|]; cbn; [|apply X]. destruct (Z.eqb_spec i (pr_id pr)) as [->|]; [|apply X].
    specialize (H4 eq_refl). lia.
  - destruct (finish_order_spec _ _ _ _ H2 H0) as (b & _ & ->). destruct (ko_type o); try apply X. cbn. destruct (addr_eqb_spec a (ko_owner o)) as [->|]; cbn; [|apply X].
    destruct (Z.eqb_spec i (ko_pair o)) as [->|]; [|apply X]. pose proof (X (ko_owner o) (ko_pair o)). destruct (_ <=? 1); lia.
  - destruct (delete_outdated_eq s) as (f & -> & _). apply X.
Qed.
