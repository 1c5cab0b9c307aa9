(** When a batch disables a pool (C82): proofs. *)
From Verif Require Import Base Dec DecProofs OrderModel MatchModel MatchSpec MatchProofs PoolModel KeeperModel KeeperLib KeeperMicro KeeperBank KeeperSteps KeeperReqs KeeperOrders KeeperBulk KeeperTrade KeeperSpec KeeperInv KeeperHist KeeperHalt KeeperCover GenesisProofs IsoSpec KeeperIso KeeperIso2 KeeperIso3 KeeperIso4 KeeperFrozen PoolLedgerSpec KeeperPoolLedger KeeperPoolLedger2 KeeperBlock ClosedSpec.

Lemma ranged_shape rx ry ps a b ap : new_ranged_pool rx ry ps a b = Ok ap -> exists tx ty, ap = Ranged rx ry ps a b tx ty.
Proof.
  unfold new_ranged_pool, set_balances. destruct (derive_translation rx ry a b) as [[tx ty]| |]; cbn [rbind fst snd]; try discriminate.
  destruct (c_add (of_int rx) tx); cbn [rbind]; try discriminate. destruct (c_add (of_int ry) ty); cbn [rbind]; try discriminate. intros E. injection E as <-. eauto.
Qed.
Lemma depleted_iff p rx ry ps ap : amm_pool p rx ry ps = Ok ap ->
  is_depleted ap = true <-> (ps = 0 \/ match pl_kind p with PBasic => rx = 0 \/ ry = 0 | PRanged _ _ => rx = 0 /\ ry = 0 end).
Proof.
  unfold amm_pool. destruct (pl_kind p) as [|a b].
  - intros E. injection E as <-. cbn [is_depleted]. rewrite !orb_true_iff, !Z.eqb_eq. lia.
  - intros E. destruct (ranged_shape rx ry ps a b ap E) as (tx & ty & ->). cbn [is_depleted]. rewrite orb_true_iff, andb_true_iff, !Z.eqb_eq. lia.
Qed.

Section Closed.
Variable n : Z.
Notation P := (fun m : Z => m =? n).
Notation dead := (dead n).
Notation frz := (frz n).

(** The pool is not disabled, or has run empty. *)
Definition closed_ok (s : state) : Prop := forall p, get_pool s n = Some p -> pl_disabled p = true -> exists pr, get_pair s (pl_pair p) = Some pr /\ run_empty s p pr.

Lemma live_dec s : dead s \/ ~ dead s.
Proof.
  destruct (get_pool s n) as [p|] eqn:G; [|right; intros (p & X & _); congruence]. destruct (pl_disabled p) eqn:D; [left; exists p; auto|right; intros (q & X & Y); congruence].
Qed.
Lemma closed_live s : ~ dead s -> closed_ok s.
Proof. intros N p G D. exfalso. apply N. exists p. auto. Qed.
Lemma closed_frz s s' : str s -> frz s s' -> later s s' -> closed_ok s -> closed_ok s'.
Proof.
  intros S [A B] L C p G D. rewrite A in G. destruct (C p G D) as (pr & Gp & R). destruct (l_pairs _ _ L _ _ Gp) as (pr' & Gp' & (_ & Eb & Eq & _)). exists pr'. split; [exact Gp'|].
  assert (Ep : pl_id p = n) by (destruct (i_pools _ S _ _ G) as (X & _); injection X as ->; reflexivity).
  unfold run_empty, reserve in *. rewrite Ep, Eb, Eq in *. assert (O : own (-1) P (PoolReserve n)) by (right; exists n; split; [reflexivity|apply Z.eqb_refl]).
  rewrite <- !(ag_bal _ _ _ _ B) by exact O. rewrite <- (ag_sup _ _ _ _ B) by apply Z.eqb_refl. exact R.
Qed.

(** *** collecting the pools of a pair *)
Lemma get_mark s p : get_pool (mark_disabled s p) n = if n =? pl_id p then Some (mkPool (pl_id p) (pl_pair p) (pl_kind p) (pl_creator p) (pl_last_dep p) (pl_last_wd p) true) else get_pool s n.
Proof.
  unfold get_pool, mark_disabled, put_pool. cbn [st_pools set_pools pl_id]. rewrite mget_mset. destruct (key_eqb_spec (n, 0) (pl_id p, 0)) as [E|N]; destruct (Z.eqb_spec n (pl_id p)) as [E'|N']; [reflexivity|congruence|congruence|reflexivity].
Qed.
Lemma collect_new pr l : forall s s2 ps, ~ dead s -> (forall k p, get_pool s k = Some p -> pl_id p = k) -> collect_pools l pr s = Some (s2, ps) -> dead s2 ->
  exists p ap, get_pool s n = Some p /\ amm_pool p (pool_rx s p pr) (pool_ry s p pr) (pool_ps s p) = Ok ap /\ is_depleted ap = true.
Proof.
  induction l as [|[k u] l IH]; intros s s2 ps N Hid H D; cbn [collect_pools] in H; [injection H as <- <-; contradiction|].
  destruct (get_pool s (snd k)) as [p|] eqn:G; [|discriminate H]. pose proof (Hid _ _ G) as Ep. destruct (pl_disabled p) eqn:Dp; [exact (IH _ _ _ N Hid H D)|].
  destruct (amm_pool p (pool_rx s p pr) (pool_ry s p pr) (pool_ps s p)) as [a| |] eqn:A; [|discriminate H|discriminate H]. cbn [of_res] in H. destruct (is_depleted a) eqn:Da.
  - destruct (Z.eq_dec n (pl_id p)) as [En|Nn]; [exists p, a; rewrite En, Ep; auto|].
    assert (Gm : get_pool (mark_disabled s p) n = get_pool s n) by (rewrite get_mark; destruct (Z.eqb_spec n (pl_id p)); [contradiction|reflexivity]).
    destruct (IH (mark_disabled s p) s2 ps) as (q & b & Gq & Aq & Dq); [intros (q & X & Y); apply N; exists q; rewrite <- Gm; auto| |exact H|exact D|exists q, b; rewrite <- Gm; auto].
    intros k' q X. destruct (mark_disabled_get s p k' q X) as [[Ek _]|X2]; [|exact (Hid _ _ X2)]. subst k'. unfold get_pool, mark_disabled, put_pool in X. cbn [st_pools set_pools pl_id] in X. rewrite mget_mset, key_eqb_refl in X. injection X as <-. reflexivity.
  - destruct (collect_pools l pr s) as [[s3 r]|] eqn:E; [|discriminate H]. cbn [fst snd] in H. injection H as <- <-. exact (IH _ _ _ N Hid E D).
Qed.
Lemma collect_in pr l : forall s s2 ps, ~ dead s -> (forall k p, get_pool s k = Some p -> pl_id p = k) -> collect_pools l pr s = Some (s2, ps) -> dead s2 -> exists kv : key * unit, In kv l /\ snd (fst kv) = n.
Proof.
  induction l as [|[k u] l IH]; intros s s2 ps N Hid H D; cbn [collect_pools] in H; [injection H as <- <-; contradiction|].
  destruct (get_pool s (snd k)) as [p|] eqn:G; [|discriminate H]. pose proof (Hid _ _ G) as Ep. destruct (Z.eq_dec (snd k) n) as [Ek|Nk]; [exists (k, u); split; [left; reflexivity|exact Ek]|].
  assert (X : exists x ps', ~ dead x /\ (forall k p, get_pool x k = Some p -> pl_id p = k) /\ collect_pools l pr x = Some (s2, ps')).
  { destruct (pl_disabled p); [eauto|]. destruct (of_res _) as [a|]; [|discriminate H]. destruct (is_depleted a).
    - exists (mark_disabled s p), ps. split; [|split; [|exact H]].
      + intros (q & X & Y). apply N. exists q. rewrite get_mark in X. destruct (Z.eqb_spec n (pl_id p)); [congruence|auto].
      + intros k' q X. destruct (mark_disabled_get s p k' q X) as [[Ek _]|X2]; [|exact (Hid _ _ X2)]. subst k'. unfold get_pool, mark_disabled, put_pool in X. cbn [st_pools set_pools pl_id] in X. rewrite mget_mset, key_eqb_refl in X. injection X as <-. reflexivity.
    - destruct (collect_pools l pr s) as [[s3 r]|] eqn:E; [|discriminate H]. cbn [fst snd] in H. injection H as <- <-. eauto. }
  destruct X as (x & ps' & Nx & Hx & E). destruct (IH _ _ _ Nx Hx E D) as (kv & Hk & En). exists kv. split; [right; exact Hk|exact En].
Qed.
Lemma collect_hit pr l p : pl_disabled p = false -> forall s s2 ps, get_pool s n = Some p -> (forall k p, get_pool s k = Some p -> pl_id p = k) -> In n (map (fun kv : key * unit => snd (fst kv)) l) ->
  (supply (st_bank s) (PoolCoin n) = 0 \/ match pl_kind p with PBasic => bal (st_bank s) (PoolReserve n) (pr_quote pr) = 0 \/ bal (st_bank s) (PoolReserve n) (pr_base pr) = 0
    | PRanged _ _ => bal (st_bank s) (PoolReserve n) (pr_quote pr) = 0 /\ bal (st_bank s) (PoolReserve n) (pr_base pr) = 0 end) ->
  collect_pools l pr s = Some (s2, ps) -> dead s2.
Proof.
  intros Dp. induction l as [|[k u] l IH]; intros s s2 ps Gn Hid Hin Em H; [destruct Hin|]. cbn [collect_pools] in H. cbn [map fst] in Hin.
  destruct (get_pool s (snd k)) as [q|] eqn:G; [|discriminate H]. pose proof (Hid _ _ G) as Eq. destruct (Z.eq_dec (snd k) n) as [Ek|Nk].
  - rewrite Ek, Gn in G. injection G as <-. rewrite Dp in H. destruct (amm_pool p (pool_rx s p pr) (pool_ry s p pr) (pool_ps s p)) as [a| |] eqn:A; [|discriminate H|discriminate H]. cbn [of_res] in H.
    assert (Da : is_depleted a = true) by (apply (depleted_iff p _ _ _ a A); unfold pool_ps, pool_rx, pool_ry; rewrite Eq, Ek; exact Em). rewrite Da in H.
    assert (W : dead (mark_disabled s p)) by (unfold KeeperFrozen.dead; rewrite get_mark, Eq, Ek, Z.eqb_refl; eexists; split; [reflexivity|reflexivity]).
    revert H W. generalize (mark_disabled s p). clear. revert s2 ps. induction l as [|[k u] l IH]; intros s2 ps x H W; cbn [collect_pools] in H; [injection H as <- <-; exact W|].
    destruct (get_pool x (snd k)) as [q|]; [|discriminate H]. destruct (pl_disabled q); [exact (IH _ _ _ H W)|]. destruct (of_res _) as [a|]; [|discriminate H]. destruct (is_depleted a).
    + apply (IH _ _ _ H). destruct W as (w & G & D). unfold KeeperFrozen.dead. rewrite get_mark. destruct (n =? pl_id q); [eexists; split; reflexivity|exists w; auto].
    + destruct (collect_pools l pr x) as [[s3 r]|] eqn:E; [|discriminate H]. cbn [fst snd] in H. injection H as <- <-. exact (IH _ _ _ E W).
  - assert (Hin' : In n (map (fun kv : key * unit => snd (fst kv)) l)) by (destruct Hin; [contradiction|assumption]). destruct (pl_disabled q); [exact (IH _ _ _ Gn Hid Hin' Em H)|].
    destruct (of_res _) as [a|]; [|discriminate H]. destruct (is_depleted a).
    + apply (IH (mark_disabled s q) s2 ps); [rewrite get_mark; destruct (Z.eqb_spec n (pl_id q)); [congruence|exact Gn]| |exact Hin'|exact Em|exact H].
      intros k' w X. destruct (mark_disabled_get s q k' w X) as [[Ew _]|X2]; [|exact (Hid _ _ X2)]. subst k'. unfold get_pool, mark_disabled, put_pool in X. cbn [st_pools set_pools pl_id] in X. rewrite mget_mset, key_eqb_refl in X. injection X as <-. reflexivity.
    + destruct (collect_pools l pr s) as [[s3 r]|] eqn:E; [|discriminate H]. cbn [fst snd] in H. injection H as <- <-. exact (IH _ _ _ Gn Hid Hin' Em E).
Qed.

(** *** one pair's matching *)
Lemma matching_pools (Q : ctl) iter pr s s' : is_perm_iter iter -> inv Q s -> (forall p, Q p -> sane_ratio p) -> stage_of Q = STrade -> get_pair s (pr_id pr) = Some pr -> plain_collectors (st_params s) -> execute_matching iter pr s = Some s' ->
  mics Q s s' /\ (forall k', k' <> (pr_id pr, 0) -> mget (st_pairs s') k' = mget (st_pairs s) k') /\
  exists s1 ss ps, mics Q s s1 /\ st_pools s1 = st_pools s /\ st_plidx s1 = st_plidx s /\ mkt (-1) P s s1 /\ collect_pools (mprefix (st_plidx s1) (pr_id pr)) pr s1 = Some (ss, ps) /\ st_pools s' = st_pools ss.
Proof.
  intros Hi I HQ T Gp PC H. pose proof (v_str _ _ I) as S. pose proof (frozen_wst n s S PC) as W.
  destruct (execute_matching_full Q iter pr s s' Hi I HQ T Gp H) as (ss & price & hu & ps & MB & MS & Mi & Pr & _ & _ & _ & _ & _ & _ & C). split; [exact Mi|]. split; [intros k' N; rewrite Pr; apply mget_mset_neq; exact N|].
  destruct (mb_collect _ _ _ _ _ MB) as (s1 & C1 & C2). exists s1, ss, ps.
  assert (Nd : NoDup (map fst (mprefix (st_orders s) (pr_id pr)))) by (apply msorted_NoDup, msorted_filter, (i_orders_sorted _ S)).
  assert (Cur : forall k o, In (k, o) (mprefix (st_orders s) (pr_id pr)) -> mget (st_orders s) k = Some o /\ fst k = pr_id pr).
  { intros k o X. apply mprefix_In in X. destruct X as [X Y]. split; [apply snap_current; [apply (i_orders_sorted _ S)|assumption]|exact Y]. }
  destruct (collect_orders_spec Q _ _ (or_introl T) s [] s1 hu I Nd Cur (Forall_nil _) (NoDup_nil _) (fun _ _ _ Z => Z) C1) as (Mc & (_ & R0 & R1 & _) & _).
  split; [exact Mc|]. split; [exact R0|]. split; [exact R1|]. destruct (i_pairs _ S _ _ Gp) as (_ & Rg & _).
  pose proof (w_users (-1) P False s (pr_id pr) S W) as U. pose proof (collect_orders_fr (-1) P (pr_id pr) _ ltac:(lia) U _ _ _ C1) as M1. cbn [fst] in M1. split; [exact M1|]. split; [exact C2|].
  unfold execute_matching in H. rewrite C1 in H. cbn [fst snd] in H. rewrite C2 in H. cbn [fst snd] in H.
  destruct C as [(_ & (h1 & K) & _)|(po & h & h2 & mp & qd & K & _ & _ & _ & MD)].
  - rewrite K in H. cbn [fst snd] in H. injection H as <-. reflexivity.
  - destruct (md_applied _ _ _ _ _ _ _ _ _ MD) as (Fo & NU & s3 & E3 & ->). assert (Is : inv Q ss) by (destruct Q as [al tr]; exact (inv_mics _ _ _ (MS tr (or_introl T)) I)).
    assert (Gss : get_pair ss (pr_id pr) = Some pr) by (unfold get_pair in *; rewrite (proj1 (mb_rest _ _ _ _ _ MB)); exact Gp).
    destruct (apply_match_spec Q ss pr _ qd s3 Is T Gss Fo NU E3) as (_ & (_ & R & _) & _). cbn [st_pools put_pair set_pairs]. exact R.
Qed.

Lemma pool_ids s : str s -> forall k p, get_pool s k = Some p -> pl_id p = k.
Proof. intros S k p G. destruct (i_pools _ S _ _ G) as (X & _). injection X as ->. reflexivity. Qed.

Lemma matching_closed (Q : ctl) iter pr s s' : is_perm_iter iter -> inv Q s -> (forall p, Q p -> sane_ratio p) -> stage_of Q = STrade -> get_pair s (pr_id pr) = Some pr -> plain_collectors (st_params s) -> execute_matching iter pr s = Some s' ->
  closed_ok s -> closed_ok s'.
Proof.
  intros Hi I HQ T Gp PC H C. pose proof (v_str _ _ I) as S. destruct (matching_pools Q iter pr s s' Hi I HQ T Gp PC H) as (Mi & _ & s1 & ss & ps & M1 & R0 & R1 & K1 & C2 & Rp). pose proof (later_mics _ _ _ Mi S) as L.
  destruct (live_dec s) as [D|N]; [exact (closed_frz s s' S (matching_frozen n Q iter pr s s' Hi I HQ T Gp PC D H) L C)|].
  destruct (live_dec s') as [D'|N']; [|apply closed_live; exact N'].
  assert (N1 : ~ dead s1) by (intros (q & X & Y); apply N; exists q; unfold get_pool in *; rewrite R0 in X; auto).
  assert (Ds : dead ss) by (destruct D' as (q & X & Y); exists q; unfold get_pool in *; rewrite Rp in X; auto).
  destruct (collect_new pr _ s1 ss ps N1 (pool_ids s1 (v_str _ _ (inv_mics _ _ _ M1 I))) C2 Ds) as (p & ap & G1 & Aq & Dp).
  assert (Gs : get_pool s n = Some p) by (unfold get_pool in *; rewrite <- R0; exact G1). assert (Ep : pl_id p = n) by exact (pool_ids s S _ _ Gs).
  assert (Pp : pl_pair p = pr_id pr).
  { destruct (collect_in pr (mprefix (st_plidx s1) (pr_id pr)) s1 ss ps N1 (pool_ids s1 (v_str _ _ (inv_mics _ _ _ M1 I))) C2 Ds) as (kv & Hk & En). apply mprefix_In in Hk. destruct Hk as [Hk Ek]. rewrite R1 in Hk. destruct kv as [[a b] u]. cbn [fst snd] in *. subst a b. destruct u.
    destruct (i_plidx _ S (pr_id pr) n) as (q & Gq & Eq). { apply (snap_current (st_plidx s) (pr_id pr, n) tt (i_plidx_sorted _ S) Hk). } rewrite Gs in Gq. injection Gq as <-. exact Eq. }
  assert (O : own (-1) P (PoolReserve n)) by (right; exists n; split; [reflexivity|apply Z.eqb_refl]). pose proof (m_bank _ _ _ _ K1) as B1.
  unfold pool_rx, pool_ry, pool_ps in Aq. rewrite Ep, <- !(ag_bal _ _ _ _ B1), <- (ag_sup _ _ _ _ B1) in Aq by (exact O || apply Z.eqb_refl).
  pose proof (proj1 (depleted_iff _ _ _ _ _ Aq) Dp) as Em.
  assert (Re : forall d, reserve s' n d = reserve s n d).
  { destruct (matching_traded n Q iter pr s s' p Hi I HQ T Gp (plain_wst (-1) (Z.eqb n) s S PC) Gs H) as [U|(mp & ap2 & bs & sl & fb & fs & _ & Tr)]; [exact U|exfalso].
    pose proof (tr_pool _ _ _ _ _ _ _ _ _ _ Tr) as A2. unfold reserve in A2. rewrite Ep, Aq in A2. injection A2 as <-. pose proof (tr_stock _ _ _ _ _ _ _ _ _ _ Tr). congruence. }
  assert (Su : supply (st_bank s') (PoolCoin n) = supply (st_bank s) (PoolCoin n)) by (apply (supply_trade Q s s' Mi S T)).
  intros q Gq Dq. destruct (l_pools _ _ L _ _ Gs) as (q2 & Gq2 & (E1 & E2 & E3 & _)). rewrite Gq in Gq2. injection Gq2 as <-. destruct (l_pairs _ _ L _ _ Gp) as (pr' & Gp' & (_ & Eb & Eq & _)).
  exists pr'. rewrite E2, Pp. split; [exact Gp'|]. unfold run_empty. rewrite E1, Ep, E3, Eb, Eq, !Re, Su. exact Em.
Qed.

(** *** requests *)
Lemma closed_mark s p pr : str s -> get_pool s n = Some p -> get_pair s (pl_pair p) = Some pr -> run_empty s p pr -> closed_ok (mark_disabled s p).
Proof.
  intros S G Gp R q Gq _. pose proof (pool_ids s S _ _ G) as Ep. rewrite get_mark, Ep, Z.eqb_refl in Gq. injection Gq as <-. exists pr. split; [exact Gp|]. unfold run_empty, reserve in *. rewrite Ep in R. exact R.
Qed.
Lemma depleted_empty s p pr ap : amm_pool p (pool_rx s p pr) (pool_ry s p pr) (pool_ps s p) = Ok ap -> is_depleted ap = true -> run_empty s p pr.
Proof. intros A D. exact (proj1 (depleted_iff _ _ _ _ _ A) D). Qed.
Lemma frz_pairs_closed s s' : str s -> frz s s' -> st_pairs s' = st_pairs s -> closed_ok s -> closed_ok s'.
Proof.
  intros S [A B] E C p G D. rewrite A in G. destruct (C p G D) as (pr & Gp & R). exists pr. split; [unfold get_pair in *; rewrite E; exact Gp|].
  pose proof (pool_ids s S _ _ G) as Ep. unfold run_empty, reserve in *. rewrite Ep in *. assert (O : own (-1) P (PoolReserve n)) by (right; exists n; split; [reflexivity|apply Z.eqb_refl]).
  rewrite <- !(ag_bal _ _ _ _ B) by exact O. rewrite <- (ag_sup _ _ _ _ B) by apply Z.eqb_refl. exact R.
Qed.

Lemma finish_dep_pairs s r st s' : finish_dep s r st = Some s' -> st_pairs s' = st_pairs s.
Proof.
  intros H. unfold finish_dep in H. destruct (dr_status r); [|injection H as <-; reflexivity|injection H as <-; reflexivity]. destruct (coins_sub _ _) as [rf|]; [|discriminate H].
  destruct rf as [|c cs]; [injection H as <-; reflexivity|]. destruct (st_send _ _ _ _) as [s1|] eqn:E; [|discriminate H]. injection H as <-. destruct (st_send_spec _ _ _ _ _ E) as (b & -> & _). reflexivity.
Qed.
Lemma finish_wd_pairs s r st s' : finish_wd s r st = Some s' -> st_pairs s' = st_pairs s.
Proof.
  intros H. unfold finish_wd in H. destruct (wr_status r); [|injection H as <-; reflexivity|injection H as <-; reflexivity].
  destruct st; [injection H as <-; reflexivity|injection H as <-; reflexivity|]. destruct (st_send _ _ _ _) as [s1|] eqn:E; [|discriminate H]. injection H as <-. destruct (st_send_spec _ _ _ _ _ E) as (b & -> & _). reflexivity.
Qed.
Lemma mark_str (Q : ctl) s p : inv Q s -> batching Q -> get_pool s (pl_id p) = Some p -> str (mark_disabled s p).
Proof. intros I B G. exact (v_str _ _ (inv_mics _ _ _ (mics_one _ _ _ (mic_disable Q s p G B)) I)). Qed.

Lemma execute_dep_closed (Q : ctl) s r s' u : inv Q s -> stage_of Q = SReq -> plain_collectors (st_params s) -> dr_owner r = User u -> later s s' -> execute_dep s r = Some s' -> closed_ok s -> closed_ok s'.
Proof.
  intros I T PC Ou L H C. pose proof (v_str _ _ I) as S. pose proof (frozen_wst n s S PC) as W. destruct (live_dec s) as [D|N]; [exact (closed_frz s s' S (execute_dep_frozen n s r s' u W D Ou H) L C)|].
  destruct (Z.eq_dec (dr_pool r) n) as [En|Nn].
  2:{ refine (closed_frz s s' S _ L C). apply mkt_frz. refine (execute_dep_fr (-1) P False _ _ _ u W _ Ou H). apply Z.eqb_neq. exact Nn. }
  destruct (live_dec s') as [D'|N']; [|apply closed_live; exact N'].
  unfold execute_dep in H. rewrite En in H. destruct (get_pool s n) as [p|] eqn:G; [|discriminate H]. pose proof (pool_ids s S _ _ G) as Ep.
  destruct (pl_disabled p) eqn:Dp; [exfalso; apply N; exists p; auto|]. destruct (get_pair s (pl_pair p)) as [pr|] eqn:Gp; [|discriminate H].
  destruct (amm_pool p (pool_rx s p pr) (pool_ry s p pr) (pool_ps s p)) as [ap| |] eqn:A; [|discriminate H|discriminate H]. cbn [of_res] in H. destruct (is_depleted ap) eqn:Da.
  - assert (Gi : get_pool s (pl_id p) = Some p) by (rewrite Ep; exact G).
    refine (frz_pairs_closed (mark_disabled s p) s' (mark_str Q s p I (or_intror T) Gi) (finish_dep_frozen n _ _ _ _ u Ou H) (finish_dep_pairs _ _ _ _ H) _). exact (closed_mark s p pr S G Gp (depleted_empty s p pr ap A Da)).
  - exfalso. destruct D' as (q & Gq & Dq).
    assert (X : get_pool s' n = Some p); [|rewrite X in Gq; injection Gq as <-; congruence].
    destruct (of_res (deposit _ _ _ _ _)) as [[[ax ay] pc]|]; [|discriminate H]. destruct (pc =? 0); [rewrite (proj1 (finish_dep_frozen n _ _ _ _ u Ou H)); exact G|].
    destruct (new_coins _) as [mi|]; [|discriminate H]. destruct (new_coins _) as [ac|]; [|discriminate H]. destruct (bulk_run _ _) as [b2|]; [|discriminate H].
    refine (eq_trans (proj1 (finish_dep_frozen n _ _ _ _ u _ H)) G). exact Ou.
Qed.

Lemma execute_wd_closed (Q : ctl) s r s' u : inv Q s -> stage_of Q = SReq -> plain_collectors (st_params s) -> wr_owner r = User u -> wr_denom r = PoolCoin (wr_pool r) -> 0 < wr_amt r -> wr_status r = RNotExecuted -> later s s' -> execute_wd s r = Some s' -> closed_ok s -> closed_ok s'.
Proof.
  intros I T PC Ou Ed Pos Es L H C. pose proof (v_str _ _ I) as S. pose proof (frozen_wst n s S PC) as W. destruct (live_dec s) as [D|N]; [exact (closed_frz s s' S (execute_wd_frozen n s r s' u W D Ou Ed H) L C)|].
  destruct (Z.eq_dec (wr_pool r) n) as [En|Nn].
  2:{ refine (closed_frz s s' S _ L C). apply mkt_frz. refine (execute_wd_fr (-1) P False _ _ _ u W _ Ou Ed H). apply Z.eqb_neq. exact Nn. }
  unfold execute_wd in H. rewrite En in H. destruct (get_pool s n) as [p|] eqn:G; [|discriminate H]. pose proof (pool_ids s S _ _ G) as Ep. assert (Gi : get_pool s (pl_id p) = Some p) by (rewrite Ep; exact G).
  destruct (pl_disabled p) eqn:Dp; [exfalso; apply N; exists p; auto|]. destruct (get_pair s (pl_pair p)) as [pr|] eqn:Gp; [|discriminate H].
  destruct (amm_pool p (pool_rx s p pr) (pool_ry s p pr) (pool_ps s p)) as [ap| |] eqn:A; [|discriminate H|discriminate H]. cbn [of_res] in H. destruct (is_depleted ap) eqn:Da.
  - refine (frz_pairs_closed (mark_disabled s p) s' (mark_str Q s p I (or_intror T) Gi) (finish_wd_frozen n _ _ _ _ u Ou H) (finish_wd_pairs _ _ _ _ H) _). exact (closed_mark s p pr S G Gp (depleted_empty s p pr ap A Da)).
  - destruct (of_res (withdraw _ _ _ _ _)) as [[x y]|]; [|discriminate H].
    assert (Live : get_pool s' n = Some p -> closed_ok s') by (intros X; apply closed_live; intros (q & Gq & Dq); congruence).
    destruct ((x =? 0) && (y =? 0)); [apply Live; rewrite (proj1 (finish_wd_frozen n _ _ _ _ u Ou H)); exact G|].
    destruct (new_coins _) as [wi|]; [|discriminate H]. destruct (new_coins _) as [bu|] eqn:Eb; [|discriminate H]. destruct (bulk_run _ _) as [b1|] eqn:E1; [|discriminate H]. destruct (burn b1 bu) as [b2|] eqn:E2; [|discriminate H]. cbv zeta in H.
    destruct (Z.eqb_spec (wr_amt r) (pool_ps s p)) as [Ea|Na].
    2:{ apply Live. refine (eq_trans (proj1 (finish_wd_frozen n _ _ _ _ u _ H)) G). exact Ou. }
    assert (Su : supply b2 (PoolCoin n) = 0).
    { destruct (new_coins_one _ _ _ Eb) as (_ & _ & _ & _ & Eu). destruct (Z.eqb_spec (wr_amt r) 0); [lia|]. subst bu. destruct (burn_one _ _ _ _ E2) as (_ & K2 & _). rewrite K2, (proj2 (proj2 (bulk_run_spec _ _ _ E1))), Ed, En. unfold pool_ps in Ea. rewrite Ep in Ea. rewrite denom_eqb_refl. lia. }
    intros q Gq Dq. match type of H with finish_wd ?x ?y ?z = _ => pose proof (finish_wd_frozen n x y z _ u Ou H) as [Fa Fb] end. rewrite Fa, get_mark, Ep, Z.eqb_refl in Gq. injection Gq as <-. cbn [pl_pair].
    exists pr. split; [unfold get_pair in *; rewrite (finish_wd_pairs _ _ _ _ H); exact Gp|]. left. cbn [pl_id]. rewrite <- (ag_sup _ _ _ _ Fb) by apply Z.eqb_refl. exact Su.
Qed.

(** *** whole batches *)
Section Stages.
Context {V : Type}.
Variable Q : ctl.
Variable proj : state -> amap V.
Variable f : V -> state -> option state.
Definition keeps_closed : Prop := forall k v s s', inv Q s -> mget (proj s) k = Some v -> f v s = Some s' -> mics Q s s' /\ (forall k', k' <> k -> mget (proj s') k' = mget (proj s) k') /\ (closed_ok s -> closed_ok s').
Lemma stage_closed l : keeps_closed -> forall s s', inv Q s -> NoDup (map fst l) -> (forall k v, In (k, v) l -> mget (proj s) k = Some v) -> for_each (fun kv => f (snd kv)) l s = Some s' -> inv Q s' /\ mics Q s s' /\ (closed_ok s -> closed_ok s').
Proof.
  intros O. induction l as [|[k v] l IH]; intros s s' I N C H; cbn [for_each] in H; [injection H as <-; split; [exact I|split; [constructor|auto]]|]. cbn [snd] in H. destruct (f v s) as [s1|] eqn:E; [|discriminate H].
  inversion N as [|? ? N1 N2]; subst. destruct (O k v s s1 I (C _ _ (or_introl eq_refl)) E) as (M & K & F). destruct (IH s1 s' (inv_mics _ _ _ M I) N2) as (X1 & X2 & X3); [|exact H|split; [exact X1|split; [exact (mics_trans _ _ _ _ M X2)|auto]]].
  intros k' v' X. rewrite K; [apply C; right; exact X|]. intros ->. apply N1. apply in_map_iff. exists (k, v'). auto.
Qed.
Lemma stage_all s s' : keeps_closed -> inv Q s -> msorted (proj s) -> for_each (fun kv => f (snd kv)) (proj s) s = Some s' -> inv Q s' /\ mics Q s s' /\ (closed_ok s -> closed_ok s').
Proof. intros O I S H. exact (stage_closed (proj s) O s s' I (msorted_NoDup _ S) (fun k v => snap_current (proj s) k v S) H). Qed.
End Stages.

Definition after_matching (a : state) : option state :=
  do s2 <- for_each (fun kv => expire_order (snd kv)) (st_orders a) a;
  do s3 <- for_each (fun kv => execute_dep_if (snd kv)) (st_deps s2) s2;
  for_each (fun kv => execute_wd_if (snd kv)) (st_wds s3) s3.
Lemma requests_closed (A : params -> Prop) a s' : (forall p, A p -> sane_ratio p /\ plain_collectors p) -> inv (mkCtl A SReq) a -> after_matching a = Some s' -> mics (mkCtl A SReq) a s' /\ (closed_ok a -> closed_ok s').
Proof.
  intros HA Ia H. assert (PC : forall st x, inv (mkCtl A st) x -> plain_collectors (st_params x)) by (intros st x Ix; apply HA; apply (v_params _ _ Ix)). unfold after_matching in H.
  destruct (for_each _ (st_orders a) a) as [b|] eqn:E2; [|discriminate H].
  destruct (stage_all (mkCtl A SReq) st_orders expire_order a b) as (Ib & Mb & Fb); [|exact Ia|exact (i_orders_sorted _ (v_str _ _ Ia))|exact E2|].
  { intros k v x x' Ix G E. destruct (expire_mics (mkCtl A SReq) v k x x' (or_intror eq_refl) Ix G E) as [Mi O]. split; [exact Mi|]. split; [exact O|].
    destruct (i_orders _ (v_str _ _ Ix) _ _ G) as (-> & pr & Gp & Ok). destruct (i_pairs _ (v_str _ _ Ix) _ _ Gp) as (Ek & R & _). injection Ek as Ek. assert (U : exists u, ko_owner v = User u) by apply Ok. destruct U as (u & Ou).
    intros C. refine (closed_frz x x' (v_str _ _ Ix) _ (later_mics _ _ _ Mi (v_str _ _ Ix)) C). apply mkt_frz. refine (expire_fr (-1) P v x x' u _ Ou E). lia. }
  destruct (for_each _ (st_deps b) b) as [c|] eqn:E3; [|discriminate H].
  destruct (stage_all (mkCtl A SReq) st_deps execute_dep_if b c) as (Ic & Mc & Fc); [|exact Ib|exact (i_deps_sorted _ (v_str _ _ Ib))|exact E3|].
  { intros k v x x' Ix G E. destruct (i_deps _ (v_str _ _ Ix) _ _ G) as (-> & _ & _ & _ & (u & Ou) & _). unfold execute_dep_if in E.
    destruct (dr_status v) eqn:Es; [|injection E as <-; split; [constructor|split; [reflexivity|auto]]|injection E as <-; split; [constructor|split; [reflexivity|auto]]].
    destruct (execute_dep_mics (mkCtl A SReq) v x x' eq_refl Ix G Es E) as [Mi O]. split; [exact Mi|]. split; [exact O|]. exact (execute_dep_closed (mkCtl A SReq) x v x' u Ix eq_refl (PC _ _ Ix) Ou (later_mics _ _ _ Mi (v_str _ _ Ix)) E). }
  destruct (stage_all (mkCtl A SReq) st_wds execute_wd_if c s') as (_ & Md & Fd); [|exact Ic|exact (i_wds_sorted _ (v_str _ _ Ic))|exact H|split; [exact (mics_trans _ _ _ _ Mb (mics_trans _ _ _ _ Mc Md))|auto]].
  intros k v x x' Ix G E. destruct (i_wds _ (v_str _ _ Ix) _ _ G) as (-> & _ & Ed & Pa & (u & Ou)). unfold execute_wd_if in E.
  destruct (wr_status v) eqn:Es; [|injection E as <-; split; [constructor|split; [reflexivity|auto]]|injection E as <-; split; [constructor|split; [reflexivity|auto]]].
  destruct (execute_wd_mics (mkCtl A SReq) v x x' eq_refl Ix G Es E) as [Mi O]. split; [exact Mi|]. split; [exact O|]. exact (execute_wd_closed (mkCtl A SReq) x v x' u Ix eq_refl (PC _ _ Ix) Ou Ed Pa Es (later_mics _ _ _ Mi (v_str _ _ Ix)) E).
Qed.

Theorem batch_closed (A : params -> Prop) iter s s' : is_perm_iter iter -> (forall p, A p -> sane_ratio p /\ plain_collectors p) -> inv (mkCtl A SMsg) s -> closed_ok s -> end_block iter s = Some s' -> closed_ok s'.
Proof.
  intros Hi HA I D H. assert (HQ : forall p, A p -> sane_ratio p) by (intros p X; apply HA; exact X).
  assert (PC : forall st x, inv (mkCtl A st) x -> plain_collectors (st_params x)) by (intros st x Ix; apply HA; apply (v_params _ _ Ix)).
  unfold end_block in H. destruct (Z.eqb_spec (st_height s mod pm_batch_size (st_params s)) 0) as [Eb|Eb]; [|injection H as <-; exact D]. unfold execute_requests in H.
  apply (inv_ctl _ STrade) in I. cbn [allowed] in I.
  destruct (for_each _ (st_pairs s) s) as [a|] eqn:E1; [|discriminate H].
  destruct (stage_all (mkCtl A STrade) st_pairs (execute_matching iter) s a) as (Ia & _ & Fa); [|exact I|exact (i_pairs_sorted _ (v_str _ _ I))|exact E1|].
  { intros k v x x' Ix G E. pose proof (pairs_key _ _ _ _ Ix G) as ->. destruct (matching_pools (mkCtl A STrade) iter v x x' Hi Ix HQ eq_refl G (PC _ _ Ix) E) as (Mi & Pr & _). split; [exact Mi|]. split; [exact Pr|].
    exact (matching_closed (mkCtl A STrade) iter v x x' Hi Ix HQ eq_refl G (PC _ _ Ix) E). }
  apply (inv_ctl _ SReq) in Ia. cbn [allowed] in Ia. exact (proj2 (requests_closed A a s' HA Ia H) (Fa D)).
Qed.

(** An active pool that has run empty is disabled by the next batch. *)
Theorem batch_closes (A : params -> Prop) iter s s' p pr : is_perm_iter iter -> (forall p, A p -> sane_ratio p /\ plain_collectors p) -> inv (mkCtl A SMsg) s -> st_height s mod pm_batch_size (st_params s) = 0 -> end_block iter s = Some s' ->
  get_pool s n = Some p -> get_pair s (pl_pair p) = Some pr -> run_empty s p pr -> dead s'.
Proof.
  intros Hi HA I0 Eb H Gn Gp Em. assert (HQ : forall x, A x -> sane_ratio x) by (intros x X; apply HA; exact X).
  unfold end_block in H. destruct (Z.eqb_spec (st_height s mod pm_batch_size (st_params s)) 0) as [_|X]; [|contradiction]. unfold execute_requests in H.
  pose proof (proj1 (inv_ctl _ STrade s) I0) as I. cbn [allowed] in I. pose proof (v_str _ _ I) as S. assert (PC : plain_collectors (st_params s)) by (apply HA; apply (v_params _ _ I)).
  destruct (for_each _ (st_pairs s) s) as [sm|] eqn:E1; [|discriminate H].
  assert (Dm : inv (mkCtl A STrade) sm /\ dead sm).
  { set (i := pl_pair p) in *.
    assert (W : KeeperIso.wst i (pool_in s i) True s).
    { apply wst_str; [exact S| |]. - intros _ m q G. unfold pool_in. rewrite G. apply Z.eqb_eq. - intros [E|(m & E & _)]; [exact (proj1 (proj1 PC) _ E)|exact (proj2 (proj1 PC) _ E)]. }
    assert (One : one i (pool_in s i) True (mkCtl A STrade) st_pairs (execute_matching iter) (fun k => fst k =? i)).
    { intros k v x x' Ix Wx G E. pose proof (pairs_key _ _ _ _ Ix G) as ->.
      destruct (execute_matching_spec _ iter v x x' Hi Ix HQ eq_refl G E) as (ss & price & hu & ps & _ & _ & Mi & Pr & _). split; [exact Mi|]. split; [intros k' Nk; rewrite Pr; apply mget_mset_neq; assumption|].
      split; [exact (matching_w i (pool_in s i) True iter v x x' (v_str _ _ Ix) Wx E)|]. cbn [fst]. intros Ne. apply Z.eqb_neq in Ne. exact (matching_fr i (pool_in s i) True _ iter v x x' Logic.I Hi Ix HQ eq_refl G Wx Ne E). }
    pose proof (i_pairs_sorted _ S) as Sp.
    assert (Rd : ready i (pool_in s i) True (mkCtl A STrade) st_pairs (st_pairs s) s) by (split; [exact I|split; [exact W|split; [apply msorted_NoDup; exact Sp|intros k v; apply snap_current; exact Sp]]]).
    assert (Epr : pr_id pr = i) by exact (get_pair_id _ _ _ S Gp).
    assert (Fl : filter (fun kv : key * pair => fst (fst kv) =? i) (st_pairs s) = [((i, 0), pr)]).
    { apply msorted_ext; [apply msorted_filter; exact Sp|constructor; constructor|]. intros [a b]. rewrite mget_filter by (apply msorted_NoDup; exact Sp). cbn [fst mget]. destruct (key_eqb_spec (a, b) (i, 0)) as [E|N].
      - injection E as -> ->. unfold get_pair in Gp. rewrite Gp, Z.eqb_refl. reflexivity.
      - destruct (mget (st_pairs s) (a, b)) as [v|] eqn:G; [|reflexivity]. pose proof (pairs_key _ _ _ _ I G) as Ek. injection Ek as Ea Eb2. destruct (Z.eqb_spec a i) as [->|]; [|reflexivity]. exfalso. apply N. congruence. }
    split; [exact (proj1 (stage_ready _ _ _ _ _ _ _ _ One _ _ Rd E1))|].
    destruct (stage_skip i (pool_in s i) True _ _ _ _ _ _ _ _ One Fl _ _ Rd E1) as (r & a & b & M1 & _ & Ia & Wa & Ga & Ea & Rb & Fr & Er).
    pose proof (stage_frame i (pool_in s i) True _ _ _ _ r One Fr _ _ Rb Er) as M2.
    assert (Pn : pool_in s i n = true) by (unfold pool_in; rewrite Gn; apply Z.eqb_refl). assert (On : own i (pool_in s i) (PoolReserve n)) by (right; exists n; auto).
    assert (Gna : get_pool a n = Some p) by (rewrite <- (m_pools _ _ _ _ M1 n Pn); exact Gn).
    assert (Pa : st_params a = st_params s) by (symmetry; exact (m_params _ _ _ _ M1)).
    assert (Gpa : get_pair a (pr_id pr) = Some pr) by (rewrite Epr; exact Ga). assert (PCa : plain_collectors (st_params a)) by (rewrite Pa; exact PC).
    assert (Db : dead b).
    { destruct (pl_disabled p) eqn:Dp; [exact (dead_frz n a b (ex_intro _ p (conj Gna Dp)) (matching_frozen n _ iter pr a b Hi Ia HQ eq_refl Gpa PCa (ex_intro _ p (conj Gna Dp)) Ea))|].
      destruct (matching_pools (mkCtl A STrade) iter pr a b Hi Ia HQ eq_refl Gpa PCa Ea) as (_ & _ & s1 & ss & ps & Mc & R0 & R1 & K1 & C2 & Rp).
      assert (Ep : pl_id p = n) by exact (pool_ids s S _ _ Gn). assert (O1 : own (-1) P (PoolReserve n)) by (right; exists n; split; [reflexivity|apply Z.eqb_refl]).
      assert (Ds : dead ss).
      { refine (collect_hit pr _ p Dp s1 ss ps _ (pool_ids s1 (v_str _ _ (inv_mics _ _ _ Mc Ia))) _ _ C2).
        - unfold get_pool in *. rewrite R0. exact Gna.
        - rewrite R1. destruct (i_pools _ (v_str _ _ Ia) _ _ Gna) as (_ & _ & _ & _ & _ & X). apply in_map_iff. exists ((pl_pair p, pl_id p), tt). split; [cbn; exact Ep|]. unfold mprefix. apply filter_In. split; [apply mget_In; exact X|]. cbn. rewrite Epr. apply Z.eqb_refl.
        - unfold run_empty, reserve in Em. rewrite Ep in Em. rewrite <- !(ag_bal _ _ _ _ (m_bank _ _ _ _ K1)), <- (ag_sup _ _ _ _ (m_bank _ _ _ _ K1)) by (exact O1 || apply Z.eqb_refl).
          rewrite <- !(ag_bal _ _ _ _ (m_bank _ _ _ _ M1)), <- (ag_sup _ _ _ _ (m_bank _ _ _ _ M1)) by (exact On || exact Pn). exact Em. }
      destruct Ds as (q & Gq & Dq). exists q. unfold get_pool in *. rewrite Rp. auto. }
    destruct Db as (q & Gq & Dq). exists q. rewrite <- (m_pools _ _ _ _ M2 n Pn). auto. }
  destruct Dm as [Im (q & Gq & Dq)]. apply (inv_ctl _ SReq) in Im. cbn [allowed] in Im. destruct (requests_closed A sm s' HA Im H) as [Mr _].
  destruct (l_pools _ _ (later_mics _ _ _ Mr (v_str _ _ Im)) _ _ Gq) as (q' & Gq' & X). exists q'. split; [exact Gq'|]. apply X. exact Dq.
Qed.
End Closed.
