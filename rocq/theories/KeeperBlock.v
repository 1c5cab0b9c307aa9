(** What messages and the begin blocker leave alone, and what the batch keeps. *)
From Verif Require Import Base Dec OrderModel MatchModel PoolModel RangeProofs KeeperModel KeeperLib KeeperSpec KeeperMicro KeeperBank KeeperSteps KeeperReqs KeeperOrders KeeperBulk KeeperTrade KeeperInv KeeperHist KeeperSettle MatchProofs.

Lemma mset_some {V} (m : amap V) k v k' old : mget m k = Some old -> (mget (mset m k v) k' <> None <-> mget m k' <> None).
Proof. intros H. rewrite mget_mset. destruct (key_eqb_spec k' k) as [->|]; [|reflexivity]. rewrite H. split; discriminate. Qed.

(** The batch creates and removes no request and no order. *)
Lemma batch_keys_mic (Q : ctl) s s' : mic Q s s' -> batching Q ->
  (forall k, mget (st_deps s') k <> None <-> mget (st_deps s) k <> None) /\ (forall k, mget (st_wds s') k <> None <-> mget (st_wds s) k <> None) /\
  (forall k, mget (st_orders s') k <> None <-> mget (st_orders s) k <> None).
Proof.
  intros M B. assert (N1 : stage_of Q <> SMsg) by (destruct B; congruence). assert (N2 : stage_of Q <> SBegin) by (destruct B; congruence).
  pose proof (orders_mic _ _ _ M) as EO. pose proof (deps_mic _ _ _ M) as ED. pose proof (wds_mic _ _ _ M) as EW. split; [|split]; intros k.
  - destruct ED as [->|[(X & _)|[(_ & r & r2 & G & _ & _ & (L1 & L2 & _) & ->)|(X & _)]]]; [reflexivity|congruence| |congruence]. rewrite L1, L2. exact (mset_some _ _ _ _ _ G).
  - destruct EW as [->|[(X & _)|[(_ & r & r2 & G & _ & _ & (L1 & L2 & _) & ->)|(X & _)]]]; [reflexivity|congruence| |congruence]. rewrite L1, L2. exact (mset_some _ _ _ _ _ G).
  - destruct EO as [->|[(X & _)|[(o & o2 & G & _ & (_ & L1 & L2 & _) & _ & _ & _ & ->)|(X & _)]]]; [reflexivity|congruence| |congruence]. rewrite L1, L2. exact (mset_some _ _ _ _ _ G).
Qed.
Lemma batch_keys (Q : ctl) s s' : mics Q s s' -> batching Q ->
  (forall k, mget (st_deps s') k <> None <-> mget (st_deps s) k <> None) /\ (forall k, mget (st_wds s') k <> None <-> mget (st_wds s) k <> None) /\
  (forall k, mget (st_orders s') k <> None <-> mget (st_orders s) k <> None).
Proof.
  intros M B. induction M; [split; [|split]; reflexivity|]. destruct (batch_keys_mic _ _ _ H B) as (A1 & A2 & A3). destruct IHM as (C1 & C2 & C3).
  split; [|split]; intros k; [rewrite C1; apply A1|rewrite C2; apply A2|rewrite C3; apply A3].
Qed.

(** Messages leave requests alone; of orders they only cancel live ones, without filling. *)
Definition cancelled_or_same (o o' : korder) : Prop := o' = o \/ (live o = true /\ o' = ko_with_status o OCanceled).
Lemma ko_eq o o' : order_later o o' -> ko_remaining o' = ko_remaining o -> ko_received o' = ko_received o -> ko_open o' = ko_open o -> ko_status o' = OCanceled -> o' = ko_with_status o OCanceled.
Proof.
  intros (A1 & A2 & A3 & A4 & A5 & A6 & A7 & A8 & A9 & A10 & A11 & A12 & A13 & _) B1 B2 B3 B4. destruct o, o'; cbn in *. subst. reflexivity.
Qed.
Lemma msg_keeps_mic (Q : ctl) s s' : mic Q s s' -> str s -> stage_of Q = SMsg ->
  (forall k r, mget (st_deps s) k = Some r -> mget (st_deps s') k = Some r) /\ (forall k r, mget (st_wds s) k = Some r -> mget (st_wds s') k = Some r) /\
  (forall k o, mget (st_orders s) k = Some o -> exists o', mget (st_orders s') k = Some o' /\ cancelled_or_same o o') /\
  (forall i p, get_pair s i = Some p -> exists p', get_pair s' i = Some p' /\ pr_last_price p' = pr_last_price p /\ pr_batch p' = pr_batch p) /\
  st_height s' = st_height s /\ st_time s' = st_time s.
Proof.
  intros M S B. pose proof (orders_mic _ _ _ M) as EO. pose proof (deps_mic _ _ _ M) as ED. pose proof (wds_mic _ _ _ M) as EW.
  split; [|split; [|split; [|split]]].
  - intros k r H. destruct ED as [->|[(_ & p & r2 & G & E1 & E2 & _ & ->)|[(X & _)|(X & _)]]]; [assumption| |congruence|congruence].
    rewrite mget_mset_neq; [assumption|]. intros ->. destruct (i_deps _ S _ _ H) as (Ek & (p0 & G0 & Bd & _) & _). injection Ek as Ek1 Ek2. rewrite <- Ek1, E1 in G0. rewrite G in G0. injection G0 as <-. lia.
  - intros k r H. destruct EW as [->|[(_ & p & r2 & G & E1 & E2 & _ & ->)|[(X & _)|(X & _)]]]; [assumption| |congruence|congruence].
    rewrite mget_mset_neq; [assumption|]. intros ->. destruct (i_wds _ S _ _ H) as (Ek & (p0 & G0 & Bd) & _). injection Ek as Ek1 Ek2. rewrite <- Ek1, E1 in G0. rewrite G in G0. injection G0 as <-. lia.
  - intros k o H. destruct EO as [->|[(_ & pr & o2 & G & E1 & E2 & _ & _ & _ & _ & ->)|[(o1 & o2 & G & L & La & _ & F & C & ->)|(X & _)]]]; [exists o; split; [assumption|left; reflexivity]| | |congruence].
    + exists o. split; [|left; reflexivity]. rewrite mget_mset_neq; [assumption|]. intros ->. destruct (i_orders _ S _ _ H) as (Ek & p0 & G0 & Bd & _). injection Ek as Ek1 Ek2. rewrite <- Ek1, E1 in G0. rewrite G in G0. injection G0 as <-. lia.
    + pose proof La as (_ & L1 & L2 & _). rewrite mget_mset. destruct (key_eqb_spec k (ko_pair o2, ko_id o2)) as [->|]; [|exists o; split; [assumption|left; reflexivity]].
      exists o2. split; [reflexivity|]. rewrite L1, L2 in H. unfold get_order in G. rewrite G in H. injection H as <-. right. split; [assumption|]. destruct F as [X|(F1 & F2 & F3)]; [congruence|]. apply ko_eq; auto. apply C. exact B.
  - intros i p H. clear EO ED EW. destruct M; norm_send; try congruence; try (exists p; split; [exact H|auto]; fail).
    + exists p. split; [|auto]. unfold get_pair, add_pair. cbn [st_pairs set_pidx put_pair set_pairs set_last_pair pr_id]. rewrite mget_mset_neq; [exact H|]. intros Ek. injection Ek as ->. destruct (i_pairs _ S _ _ H) as (Ek & Bd & _). injection Ek as Ek. lia.
    + assert (E : forall s3, st_pairs (match typ with TMM => set_mm_count s3 (User u) (pr_id pr) (st_mm s (User u) (pr_id pr) + 1) | _ => s3 end) = st_pairs s3) by (intros; destruct typ; reflexivity).
      unfold get_pair, add_order. cbn zeta. change (st_mm (set_bank s b)) with (st_mm s). rewrite E. cbn [st_pairs oidx_add set_oidx put_order set_orders put_pair set_pairs pr_id set_bank].
      rewrite mget_mset. destruct (key_eqb_spec (i, 0) (pr_id pr, 0)) as [Ek|]; [|exists p; auto]. injection Ek as ->. eexists. split; [reflexivity|]. unfold get_pair in *. rewrite H0 in H. injection H as <-. auto.
    + destruct (finish_order_spec _ _ _ _ H3 H1) as (b & _ & ->). exists p. split; [|auto]. destruct (ko_type o); exact H.
  - clear EO ED EW. destruct M; norm_send; try congruence; try (split; reflexivity).
    + destruct typ; split; reflexivity.
    + destruct (finish_order_spec _ _ _ _ H2 H0) as (b & _ & ->). destruct (ko_type o); split; reflexivity.
Qed.
Lemma cancelled_or_same_trans a b c : cancelled_or_same a b -> cancelled_or_same b c -> cancelled_or_same a c.
Proof. intros [->|(L & ->)]; [auto|]. intros [->|(L2 & _)]; [right; auto|discriminate L2]. Qed.
Lemma msg_keeps (Q : ctl) s s' : mics Q s s' -> str s -> stage_of Q = SMsg ->
  (forall k r, mget (st_deps s) k = Some r -> mget (st_deps s') k = Some r) /\ (forall k r, mget (st_wds s) k = Some r -> mget (st_wds s') k = Some r) /\
  (forall k o, mget (st_orders s) k = Some o -> exists o', mget (st_orders s') k = Some o' /\ cancelled_or_same o o') /\
  (forall i p, get_pair s i = Some p -> exists p', get_pair s' i = Some p' /\ pr_last_price p' = pr_last_price p /\ pr_batch p' = pr_batch p) /\
  st_height s' = st_height s /\ st_time s' = st_time s.
Proof.
  intros M. induction M as [s|s1 s2 s3 M1 M2 IH]; intros S B.
  - repeat match goal with |- _ /\ _ => split end; auto; [intros k o H; exists o; split; [assumption|left; reflexivity]|intros i p H; exists p; auto].
  - destruct (msg_keeps_mic _ _ _ M1 S B) as (A1 & A2 & A3 & A4 & A5 & A6). destruct (IH (str_mic _ _ _ M1 S) B) as (C1 & C2 & C3 & C4 & C5 & C6).
    split; [auto|]. split; [auto|]. split; [|split; [|split; congruence]].
    + intros k o H. destruct (A3 k o H) as (o1 & H1 & E1). destruct (C3 k o1 H1) as (o2 & H2 & E2). exists o2. split; [assumption|]. eapply cancelled_or_same_trans; eassumption.
    + intros i p H. destruct (A4 i p H) as (p1 & H1 & E1 & F1). destruct (C4 i p1 H1) as (p2 & H2 & E2 & F2). exists p2. split; [assumption|]. split; congruence.
Qed.

(** The begin blocker keeps pending requests and live orders, drops the others, changes nothing else. *)
Lemma begin_block_facts s t : str s ->
  (forall k r, mget (st_deps (begin_block s t)) k = Some r <-> mget (st_deps s) k = Some r /\ dr_status r = RNotExecuted) /\
  (forall k r, mget (st_wds (begin_block s t)) k = Some r <-> mget (st_wds s) k = Some r /\ wr_status r = RNotExecuted) /\
  (forall k o, mget (st_orders (begin_block s t)) k = Some o <-> mget (st_orders s) k = Some o /\ live o = true) /\
  st_pairs (begin_block s t) = st_pairs s /\ st_pools (begin_block s t) = st_pools s /\ st_bank (begin_block s t) = st_bank s /\ st_params (begin_block s t) = st_params s /\
  st_height (begin_block s t) = st_height s + 1 /\ st_time (begin_block s t) = t.
Proof.
  intros S. unfold begin_block. destruct (delete_outdated_eq (set_clock s (st_height s + 1) t)) as (f & -> & _). cbn [st_deps st_wds st_orders st_pairs st_pools st_bank st_params st_height st_time set_oidx set_orders set_wds set_deps set_clock].
  repeat match goal with |- _ /\ _ => split end; try reflexivity; intros k r;
  rewrite mget_filter by (apply msorted_NoDup; first [apply (i_deps_sorted _ S)|apply (i_wds_sorted _ S)|apply (i_orders_sorted _ S)]); cbn [snd].
  - destruct (mget (st_deps s) k) as [r0|]; [|split; [discriminate|intros [X _]; discriminate X]]. destruct (dr_status r0) eqn:E; cbn; (split; [intros X; try discriminate X; injection X as <-; auto|intros [X Y]; injection X as <-; congruence]).
  - destruct (mget (st_wds s) k) as [r0|]; [|split; [discriminate|intros [X _]; discriminate X]]. destruct (wr_status r0) eqn:E; cbn; (split; [intros X; try discriminate X; injection X as <-; auto|intros [X Y]; injection X as <-; congruence]).
  - destruct (mget (st_orders s) k) as [r0|]; [|split; [discriminate|intros [X _]; discriminate X]]. change (negb (o_terminal (ko_status r0))) with (live r0). destruct (live r0) eqn:E; (split; [intros X; try discriminate X; injection X as <-; auto|intros [X Y]; injection X as <-; congruence]).
Qed.

(** ** One request in the batch *)
Section OneBatch.
Variable Q : params -> Prop.
Variable iter : list (nat * Z) -> list (nat * Z).
Hypothesis Hi : is_perm_iter iter.
Variables s s' : state.
Hypothesis R : reach (sane Q) (InBlock, s).
Hypothesis HB : st_height s mod pm_batch_size (st_params s) = 0.
Hypothesis HE : end_block iter s = Some s'.

Lemma batch_requests : execute_requests iter s = Some s'.
Proof. unfold end_block in HE. rewrite HB in HE. exact HE. Qed.
Lemma batch_sane : forall p, sane Q p -> sane_ratio p.
Proof. intros p [_ X]. exact X. Qed.

Lemma batch_dep k r : mget (st_deps s) k = Some r ->
  exists sa sb p pr r', at_deposit iter s k r sa /\ execute_dep sa r = Some sb /\ get_pool sa (dr_pool r) = Some p /\ get_pair sa (pl_pair p) = Some pr /\
    mget (st_deps sb) k = Some r' /\ mget (st_deps s') k = Some r' /\ (dep_refused (st_bank sa) (st_bank sb) r r' \/ dep_accepted sa (st_bank sb) p pr r r').
Proof.
  intros G. pose proof (reach_okp Q _ R) as I. cbn [snd] in I. destruct (reach_in_block Q s R) as (P & _).
  destruct (deposit_happens (sane Q) iter Hi batch_sane s s' k r I batch_requests G) as (sa & sb & A & E & F).
  destruct (at_deposit_ok (sane Q) iter Hi batch_sane s k r sa I A) as (Ia & _ & Ga & ->).
  unfold execute_dep_if in E. rewrite (P _ r G) in E.
  destruct (execute_dep_spec _ r sa sb Ia Ga (P _ r G) E) as (p & pr & r' & E1 & E2 & E3 & E4).
  exists sa, sb, p, pr, r'. rewrite F. auto 10.
Qed.
Lemma batch_wd k r : mget (st_wds s) k = Some r ->
  exists sa sb p pr r', at_withdraw iter s k r sa /\ execute_wd sa r = Some sb /\ get_pool sa (wr_pool r) = Some p /\ get_pair sa (pl_pair p) = Some pr /\
    mget (st_wds sb) k = Some r' /\ mget (st_wds s') k = Some r' /\
    (wd_refused (st_bank sa) (st_bank sb) r r' \/
     wd_accepted sa (st_bank sb) p pr r r' /\ exists p', get_pool sb (wr_pool r) = Some p' /\ pl_disabled p' = (wr_amt r =? supply (st_bank sa) (PoolCoin (pl_id p)))).
Proof.
  intros G. pose proof (reach_okp Q _ R) as I. cbn [snd] in I. destruct (reach_in_block Q s R) as (_ & P & _).
  destruct (withdraw_happens (sane Q) iter Hi batch_sane s s' k r I batch_requests G) as (sa & sb & A & E & F).
  destruct (at_withdraw_ok (sane Q) iter Hi batch_sane s k r sa I A) as (Ia & _ & Ga & ->).
  unfold execute_wd_if in E. rewrite (P _ r G) in E.
  assert (W : wr_withdrawn r = []) by exact (reach_wd_blank Q _ R _ _ G (P _ r G)).
  destruct (execute_wd_spec _ r sa sb Ia Ga (P _ r G) W E) as (p & pr & r' & E1 & E2 & E3 & E4).
  exists sa, sb, p, pr, r'. rewrite F. auto 10.
Qed.
Lemma batch_same_keys : 
  (forall k, mget (st_deps s') k <> None <-> mget (st_deps s) k <> None) /\ (forall k, mget (st_wds s') k <> None <-> mget (st_wds s) k <> None) /\
  (forall k, mget (st_orders s') k <> None <-> mget (st_orders s) k <> None).
Proof.
  destruct (end_block_mics (sane Q) iter s s' Hi (reach_okp Q _ R) batch_sane HE) as (s1 & M1 & M2).
  destruct (batch_keys _ _ _ M1 (or_introl eq_refl)) as (A1 & A2 & A3). destruct (batch_keys _ _ _ M2 (or_intror eq_refl)) as (B1 & B2 & B3).
  split; [|split]; intros k; [rewrite B1; apply A1|rewrite B2; apply A2|rewrite B3; apply A3].
Qed.
Lemma batch_later : later s s'.
Proof. exact (later_amics _ _ _ (step_mics Q (InBlock, s) (Between, s') (Step_end _ iter s s' Hi HE) (reach_okp Q _ R)) (reach_okp Q _ R)). Qed.
End OneBatch.

Lemma reach_later Q c c' : reach (sane Q) c -> runs (sane Q) c c' -> later (snd c) (snd c').
Proof. intros R H. exact (later_amics _ _ _ (runs_mics Q c c' H (reach_okp Q c R)) (reach_okp Q c R)). Qed.
Lemma reach_str Q c : reach (sane Q) c -> str (snd c).
Proof. intros R. exact (v_str _ _ (reach_okp Q c R)). Qed.
