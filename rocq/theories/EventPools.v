(** Events (C84): what is reported about pools. *)
From Verif Require Import Base Dec DecProofs OrderModel MatchModel MatchSpec MatchProofs PoolModel KeeperModel KeeperLib KeeperSpec KeeperMicro KeeperSteps KeeperOrders KeeperReqs KeeperInv KeeperBank KeeperHist GenesisProofs KeeperTrade KeeperBlock IsoSpec KeeperIso KeeperIso2 PoolLedgerSpec KeeperPoolLedger KeeperPoolLedger2 EventModel EventSpec EventProofs EventOrders EventReqs.

Section OnePool.
Variable n : Z.
Variable d : denom.
Notation theirs := (theirs n).
Definition res_paid (acc : list pool_result) : Z := sumZ (map (fun r => if (ps_pool r =? n) && denom_eqb d (ps_paid_denom r) then ps_paid r else 0) acc).
Definition res_recv (acc : list pool_result) : Z := sumZ (map (fun r => if (ps_pool r =? n) && denom_eqb d (ps_recv_denom r) then ps_recv r else 0) acc).

Definition right_coins (pr : pair) (seen : list (Z * dir)) (r : pool_result) : Prop :=
  In (ps_pool r, ps_dir r) seen /\ ps_paid_denom r = offer_denom_of pr (ps_dir r) /\ ps_recv_denom r = demand_denom_of pr (ps_dir r).
Lemma note_pool_sums pr seen id dr x y m acc : Forall (right_coins pr seen) acc -> existsb (fun z => (fst z =? id) && negb (dir_eqb (snd z) dr)) seen = false ->
  let acc' := note_pool acc id dr (offer_denom_of pr dr) x (demand_denom_of pr dr) y m in
  Forall (right_coins pr ((id, dr) :: seen)) acc' /\
  res_paid acc' = res_paid acc + (if (id =? n) && denom_eqb d (offer_denom_of pr dr) then x else 0) /\ res_recv acc' = res_recv acc + (if (id =? n) && denom_eqb d (demand_denom_of pr dr) then y else 0).
Proof.
  intros F E. assert (U : forall d0, In (id, d0) seen -> d0 = dr).
  { intros d0 X. destruct (dir_eqb d0 dr) eqn:Ed; [destruct d0, dr; first [reflexivity|discriminate Ed]|]. exfalso. assert (Y : existsb (fun z => (fst z =? id) && negb (dir_eqb (snd z) dr)) seen = true); [|congruence].
    apply existsb_exists. exists (id, d0). split; [exact X|]. cbn [fst snd]. rewrite Z.eqb_refl, Ed. reflexivity. }
  assert (Wk : forall r, right_coins pr seen r -> right_coins pr ((id, dr) :: seen) r) by (intros r (A & B); split; [right; exact A|exact B]).
  cbn zeta. induction F as [|r acc (A1 & A2 & A3) F IH]; cbn [note_pool].
  - split; [constructor; [|constructor]; split; [left; reflexivity|split; reflexivity]|]. unfold res_paid, res_recv. cbn [map ps_pool ps_paid_denom ps_paid ps_recv_denom ps_recv]. rewrite !sumZ_cons. cbn [sumZ]. split; unfold sumZ; cbn; lia.
  - destruct (Z.eqb_spec (ps_pool r) id) as [Ei|Ni].
    + assert (Ed : ps_dir r = dr) by (apply U; rewrite <- Ei; exact A1). split.
      * constructor; [|eapply Forall_impl; [|exact F]; exact Wk]. split; [left; cbn [ps_pool ps_dir]; rewrite Ed; reflexivity|]. cbn [ps_dir ps_paid_denom ps_recv_denom]. auto.
      * unfold res_paid, res_recv. cbn [map ps_pool ps_paid_denom ps_paid ps_recv_denom ps_recv]. rewrite !sumZ_cons, Ei, A2, A3, Ed. destruct (id =? n); cbn [andb]; [|lia]. destruct (denom_eqb d (offer_denom_of pr dr)), (denom_eqb d (demand_denom_of pr dr)); lia.
    + destruct IH as (I1 & I2 & I3). split; [constructor; [apply Wk; split; [exact A1|auto]|exact I1]|]. unfold res_paid, res_recv in *. cbn [map]. rewrite !sumZ_cons, I2, I3. lia.
Qed.
Lemma apply_orders_noted pr os : forall s q seen acc s' q' ev acc', Forall (right_coins pr seen) acc -> apply_orders_e pr os s q seen acc = Some (s', q', ev, acc') ->
  total (pool_paid n d) ev = 0 /\ total (pool_received n d) ev = 0 /\ res_paid acc' = res_paid acc + paid_in pr (filter theirs os) d /\ res_recv acc' = res_recv acc + recv_in pr (filter theirs os) d /\
  exists seen', Forall (right_coins pr seen') acc'.
Proof.
  induction os as [|o os IH]; intros s q seen acc s' q' ev acc' F H; cbn [apply_orders_e] in H.
  - injection H as <- <- <- <-. unfold total, paid_in, recv_in. cbn. split; [reflexivity|]. split; [reflexivity|]. split; [lia|]. split; [lia|eauto].
  - assert (Skip : is_matched o = false \/ theirs o = false -> paid_in pr (filter theirs (o :: os)) d = paid_in pr (filter theirs os) d /\ recv_in pr (filter theirs (o :: os)) d = recv_in pr (filter theirs os) d).
    { intros X. cbn [filter]. destruct (theirs o); [|auto]. destruct X as [X|X]; [|discriminate X]. unfold paid_in, recv_in. cbn [map]. rewrite X, !sumZ_cons. lia. }
    destruct (is_matched o) eqn:M; [|destruct (Skip (or_introl eq_refl)) as [-> ->]; exact (IH _ _ _ _ _ _ _ _ F H)].
    destruct (o_kind o) as [|id|id] eqn:K; [discriminate H| |].
    + assert (Th : theirs o = false) by (unfold KeeperPoolLedger.theirs; rewrite K; reflexivity). destruct (Skip (or_intror Th)) as [-> ->].
      destruct (get_order s (pr_id pr) id) as [ko|]; [|discriminate H]. destruct (ko_remaining ko <? o_paid o); [discriminate H|]. cbn zeta in H.
      match type of H with (match ?e with Some x => _ | None => None end) = _ => destruct e as [[s1 e1]|] eqn:Es; [|discriminate H] end. cbn [fst snd] in H.
      destruct (new_coins _) as [cs|]; [|discriminate H]. destruct (apply_orders_e pr os s1 _ seen acc) as [[[[s2 q2] ev2] acc2]|] eqn:E2; [|discriminate H]. injection H as <- <- <- <-.
      destruct (IH _ _ _ _ _ _ _ _ F E2) as (T1 & T2 & R). assert (Q1 : total (pool_paid n d) e1 = 0 /\ total (pool_received n d) e1 = 0).
      { destruct (_ =? 0); [|injection Es as _ <-; split; reflexivity]. unfold finish_order_e in Es. destruct (finish_order _ _ _); [|discriminate Es]. injection Es as _ <-. destruct (o_terminal _); split; reflexivity. }
      destruct Q1 as [Q1 Q2]. split; [|split; [|exact R]]; rewrite total_app; unfold total in *; cbn [map]; rewrite sumZ_cons; cbn [pool_paid pool_received]; lia.
    + destruct (new_coins _) as [cs|]; [|discriminate H]. cbn zeta in H. destruct (existsb _ seen) eqn:Es; [discriminate H|].
      destruct (note_pool_sums pr seen id (o_dir o) (o_paid o) (o_recv o) (o_amt o - o_open o) acc F Es) as (N1 & N2 & N3). destruct (IH _ _ _ _ _ _ _ _ N1 H) as (T1 & T2 & R1 & R2 & R3).
      split; [exact T1|]. split; [exact T2|]. rewrite R1, R2, N2, N3. split; [|split; [|exact R3]]; cbn [filter]; unfold KeeperPoolLedger.theirs; rewrite K; destruct (id =? n); cbn [andb]; try lia; unfold paid_in, recv_in; cbn [map]; rewrite M, sumZ_cons; unfold of_denom; lia.
Qed.
Lemma pool_events_total i acc : total (pool_paid n d) (map (pool_event i) acc) = res_paid acc /\ total (pool_received n d) (map (pool_event i) acc) = res_recv acc.
Proof. unfold total, res_paid, res_recv. rewrite !map_map. split; reflexivity. Qed.
Lemma collect_silent l : forall s h s1 h1 ev, collect_orders_e l s h = Some (s1, h1, ev) -> total (pool_paid n d) ev = 0 /\ total (pool_received n d) ev = 0.
Proof.
  induction l as [|[k o] l IH]; intros s h s1 h1 ev H; cbn [collect_orders_e] in H; [injection H as _ _ <-; split; reflexivity|].
  destruct (o_terminal (ko_status o)); [exact (IH _ _ _ _ _ H)|]. destruct (match ko_status o with ONotExecuted => false | _ => expired_at o (st_time s) end).
  - destruct (finish_order_e s o OExpired) as [[s2 e2]|] eqn:E; [|discriminate H]. cbn [fst snd] in H. destruct (collect_orders_e l s2 h) as [[[s3 h3] e3]|] eqn:E3; [|discriminate H]. injection H as _ _ <-. destruct (IH _ _ _ _ _ E3) as [A B].
    rewrite !total_app, A, B. unfold finish_order_e in E. destruct (finish_order s o OExpired); [|discriminate E]. injection E as _ <-. destruct (o_terminal _); split; reflexivity.
  - destruct (of_res (user_order o)); [|discriminate H]. exact (IH _ _ _ _ _ H).
Qed.
End OnePool.

Definition pools_told (s : state) (ev : list event) (s' : state) : Prop := forall n d, reserve s' n d = reserve s n d - total (pool_paid n d) ev + total (pool_received n d) ev.
Lemma pools_told_trans a l1 b l2 c : pools_told a l1 b -> pools_told b l2 c -> pools_told a (l1 ++ l2) c.
Proof. intros A B n d. rewrite (B n d), (A n d), !total_app. lia. Qed.
Lemma pools_told_refl s : pools_told s [] s.
Proof. intros n d. unfold total. cbn. lia. Qed.

Lemma collect_pools_bank pr l : forall s s2 ps, collect_pools l pr s = Some (s2, ps) -> st_bank s2 = st_bank s.
Proof.
  induction l as [|[k u] l IH]; intros s s2 ps H; cbn [collect_pools] in H; [injection H as <- _; reflexivity|].
  destruct (get_pool s (snd k)) as [p|]; [|discriminate H]. destruct (pl_disabled p); [exact (IH _ _ _ H)|]. destruct (of_res _) as [ap|]; [|discriminate H].
  destruct (is_depleted ap); [exact (IH _ _ _ H)|]. destruct (collect_pools l pr s) as [[s3 q]|] eqn:E; [|discriminate H]. injection H as <- _. exact (IH _ _ _ E).
Qed.
Lemma matching_pools (Q : ctl) iter pr s s' ev : is_perm_iter iter -> inv Q s -> (forall p, Q p -> sane_ratio p) -> (forall p, Q p -> plain_collectors p) -> stage_of Q = STrade -> get_pair s (pr_id pr) = Some pr ->
  execute_matching_e iter pr s = Some (s', ev) -> pools_told s ev s'.
Proof.
  intros Hi I HQ HC T Gp H n d. pose proof (v_str _ _ I) as S. pose proof (f_equal only H) as H0. rewrite execute_matching_erase in H0. cbn [only] in H0. unfold reserve.
  assert (W : wst (-1) (Z.eqb n) False s) by (apply plain_wst; [exact S|apply HC; apply (v_params _ _ I)]).
  destruct (execute_matching_full Q iter pr s s' Hi I HQ T Gp H0) as (ss & price & hu & ps & MB & _). destruct (mb_collect _ _ _ _ _ MB) as (s1 & C1 & C2).
  destruct (i_pairs _ S _ _ Gp) as (_ & R & _).
  pose proof (w_users (-1) (Z.eqb n) False s (pr_id pr) S W) as U. pose proof (collect_orders_fr (-1) (Z.eqb n) (pr_id pr) _ ltac:(lia) U _ _ _ C1) as M1. pose proof (collect_orders_w (-1) (Z.eqb n) False _ _ U _ _ _ W C1) as W1. cbn [fst] in M1, W1.
  pose proof (collect_pools_w (-1) (Z.eqb n) False _ _ _ _ W1 C2) as W2. cbn [fst] in W2.
  unfold execute_matching_e in H. destruct (collect_orders_e _ s []) as [[[s1' h] ev1]|] eqn:E1; [|discriminate H]. pose proof (f_equal only2 E1) as E1'. rewrite collect_orders_erase, C1 in E1'. cbn [only2] in E1'. injection E1' as <- <-.
  rewrite C2 in H. cbn [fst snd] in H. destruct (collect_silent n d _ _ _ _ _ _ E1) as [Z1 Z2].
  assert (Bs : forall d, bal (st_bank ss) (PoolReserve n) d = bal (st_bank s) (PoolReserve n) d).
  { intros x. rewrite (collect_pools_bank _ _ _ _ _ C2). exact (mkt_reserve n _ _ M1 x). }
  destruct (kmatch _ _ _ _ _) as [[hh mr]|] eqn:Ek; [|discriminate H]. cbn [fst snd] in H. destruct mr as [[[h2 mp] qd]|].
  2:{ injection H as <- <-. cbn [st_bank put_pair set_pairs]. rewrite Bs, Z1, Z2. lia. }
  destruct (apply_match_e ss pr _ qd) as [[s3 e3]|] eqn:Ea; [|discriminate H]. injection H as <- <-. cbn [fst snd].
  pose proof (f_equal only Ea) as Ea0. rewrite apply_match_erase in Ea0. cbn [only] in Ea0.
  destruct (apply_match_reserve n ss pr _ qd s3 ltac:(lia) W2 Ea0) as [A1 _]. rewrite !total_app, Z1, Z2. cbn [st_bank put_pair set_pairs]. rewrite A1, Bs.
  unfold apply_match_e in Ea. destruct (queue_pool_payments pr _ []); [|discriminate Ea]. destruct (bulk_run _ _) as [b1|]; [|discriminate Ea].
  destruct (apply_orders_e pr _ _ [] [] []) as [[[[s4 q] ev4] acc]|] eqn:Eo; [|discriminate Ea]. destruct (new_coins _); [|discriminate Ea]. destruct (bulk_run (st_bank s4) _) as [b2|]; [|discriminate Ea]. injection Ea as _ <-.
  destruct (apply_orders_noted n d pr _ _ _ _ _ _ _ _ _ (Forall_nil _) Eo) as (T1 & T2 & R1 & R2 & _). destruct (pool_events_total n d (pr_id pr) acc) as [P1 P2].
  rewrite !total_app, T1, T2, P1, P2, R1, R2. change (res_paid n d []) with 0. change (res_recv n d []) with 0. lia.
Qed.

(** The matching stage of a batch, and the silence of the others. *)
Lemma for_each_pools (Q : ctl) iter l : is_perm_iter iter -> (forall p, Q p -> sane_ratio p) -> (forall p, Q p -> plain_collectors p) -> stage_of Q = STrade -> NoDup (map fst l) -> forall s s' ev, inv Q s -> (forall k v, In (k, v) l -> mget (st_pairs s) k = Some v) ->
  for_each_e (fun kv : key * pair => execute_matching_e iter (snd kv)) l s = Some (s', ev) -> pools_told s ev s'.
Proof.
  intros Hi HQ HC T. induction l as [|[k v] l IH]; intros N s s' ev I C H; cbn [for_each_e snd] in H; [injection H as <- <-; apply pools_told_refl|].
  destruct (execute_matching_e iter v s) as [[s1 e1]|] eqn:E; [|discriminate H]. cbn [fst snd] in H. destruct (for_each_e _ l s1) as [[s2 e2]|] eqn:E2; [|discriminate H]. injection H as <- <-. cbn [map fst] in N. apply NoDup_cons_iff in N. destruct N as [N1 N2].
  pose proof (C _ _ (or_introl eq_refl)) as G. pose proof (pairs_key Q _ _ _ I G) as ->. pose proof (f_equal only E) as E0. rewrite execute_matching_erase in E0. cbn [only] in E0.
  destruct (execute_matching_spec Q iter v s s1 Hi I HQ T G E0) as (ss & price & hu & ps & _ & _ & M & P & _).
  refine (pools_told_trans _ _ _ _ _ (matching_pools Q iter v s s1 e1 Hi I HQ HC T G E) (IH N2 s1 s2 e2 (inv_mics Q _ _ M I) _ E2)).
  intros k' v' X. rewrite P, mget_mset_neq; [apply C; right; assumption|]. intros ->. apply N1. change (pr_id v, 0) with (fst ((pr_id v, 0), v')). apply in_map. assumption.
Qed.
Definition pool_silent (e : event) : Prop := match e with PoolOrderMatched _ _ _ _ _ _ _ _ | UserOrderMatched _ _ _ _ _ _ _ _ _ => False | _ => True end.
Lemma silent_total n d ev : Forall pool_silent ev -> total (pool_paid n d) ev = 0 /\ total (pool_received n d) ev = 0.
Proof. unfold total. induction 1 as [|e ev H _ [IH1 IH2]]; [split; reflexivity|]. cbn [map]. rewrite !sumZ_cons, IH1, IH2. destruct e; cbn in *; try (split; reflexivity); destruct H. Qed.
Lemma for_each_silent {A} (f : A -> state -> option (state * list event)) l : (forall x s s' ev, f x s = Some (s', ev) -> Forall pool_silent ev) -> forall s s' ev, for_each_e f l s = Some (s', ev) -> Forall pool_silent ev.
Proof.
  intros Hf. induction l as [|x l IH]; intros s s' ev H; cbn [for_each_e] in H; [injection H as _ <-; constructor|]. destruct (f x s) as [[s1 e1]|] eqn:E; [|discriminate H]. cbn [fst snd] in H. destruct (for_each_e f l s1) as [[s2 e2]|] eqn:E2; [|discriminate H]. injection H as _ <-.
  apply Forall_app. split; [exact (Hf _ _ _ _ E)|exact (IH _ _ _ E2)].
Qed.
Lemma finish_silent s o st s' ev : finish_order_e s o st = Some (s', ev) -> Forall pool_silent ev.
Proof. unfold finish_order_e. destruct (finish_order s o st); [|discriminate]. intros H. injection H as _ <-. destruct (o_terminal _); repeat constructor. Qed.
Lemma finish_dep_silent s r st s' ev : finish_dep_e s r st = Some (s', ev) -> Forall pool_silent ev.
Proof. unfold finish_dep_e. destruct (finish_dep s r st); [|discriminate]. destruct (dr_status r); [destruct (coins_sub _ _); [|discriminate]|..]; intros H; injection H as _ <-; repeat constructor. Qed.
Lemma finish_wd_silent s r st s' ev : finish_wd_e s r st = Some (s', ev) -> Forall pool_silent ev.
Proof. unfold finish_wd_e. destruct (finish_wd s r st); [|discriminate]. destruct (wr_status r); intros H; injection H as _ <-; repeat constructor. Qed.
Lemma execute_dep_silent r s s' ev : execute_dep_e s r = Some (s', ev) -> Forall pool_silent ev.
Proof.
  intros H. unfold execute_dep_e in H. destruct (get_pool s (dr_pool r)) as [p|]; [|discriminate H]. destruct (pl_disabled p); [exact (finish_dep_silent _ _ _ _ _ H)|].
  destruct (get_pair s (pl_pair p)) as [pr|]; [|discriminate H]. cbn zeta in H. destruct (of_res (amm_pool _ _ _ _)) as [ap|]; [|discriminate H]. destruct (is_depleted ap); [exact (finish_dep_silent _ _ _ _ _ H)|].
  destruct (of_res (deposit _ _ _ _ _)) as [[[ax ay] pc]|]; [|discriminate H]. destruct (pc =? 0); [exact (finish_dep_silent _ _ _ _ _ H)|].
  destruct (new_coins _); [|discriminate H]. destruct (new_coins _); [|discriminate H]. destruct (bulk_run _ _); [|discriminate H]. exact (finish_dep_silent _ _ _ _ _ H).
Qed.
Lemma execute_wd_silent r s s' ev : execute_wd_e s r = Some (s', ev) -> Forall pool_silent ev.
Proof.
  intros H. unfold execute_wd_e in H. destruct (get_pool s (wr_pool r)) as [p|]; [|discriminate H]. destruct (pl_disabled p); [exact (finish_wd_silent _ _ _ _ _ H)|].
  destruct (get_pair s (pl_pair p)) as [pr|]; [|discriminate H]. cbn zeta in H. destruct (of_res (amm_pool _ _ _ _)) as [ap|]; [|discriminate H]. destruct (is_depleted ap); [exact (finish_wd_silent _ _ _ _ _ H)|].
  destruct (of_res (withdraw _ _ _ _ _)) as [[x y]|]; [|discriminate H]. destruct ((x =? 0) && (y =? 0)); [exact (finish_wd_silent _ _ _ _ _ H)|].
  destruct (new_coins _); [|discriminate H]. destruct (new_coins _); [|discriminate H]. destruct (bulk_run _ _); [|discriminate H]. destruct (burn _ _); [|discriminate H]. exact (finish_wd_silent _ _ _ _ _ H).
Qed.
Theorem batch_pools (A : params -> Prop) iter s s' ev : is_perm_iter iter -> inv (mkCtl A SMsg) s -> (forall p, A p -> sane_ratio p) -> (forall p, A p -> plain_collectors p) -> execute_requests_e iter s = Some (s', ev) ->
  exists sm, all_matched iter s sm /\ pools_told s ev sm.
Proof.
  intros Hi I HQ HC H. unfold execute_requests_e in H. apply (inv_ctl _ STrade) in I. cbn [allowed] in I. pose proof (i_pairs_sorted _ (v_str _ _ I)) as Sp.
  destruct (for_each_e _ (st_pairs s) s) as [[s1 e1]|] eqn:E1; [|discriminate H]. cbn [fst snd] in H.
  pose proof (for_each_pools (mkCtl A STrade) iter (st_pairs s) Hi HQ HC eq_refl (msorted_NoDup _ Sp) s s1 e1 I (fun k v => snap_current _ k v Sp) E1) as P1.
  destruct (for_each_e _ (st_orders s1) s1) as [[s2 e2]|] eqn:E2; [|discriminate H]. cbn [fst snd] in H. destruct (for_each_e _ (st_deps s2) s2) as [[s3 e3]|] eqn:E3; [|discriminate H]. cbn [fst snd] in H.
  destruct (for_each_e _ (st_wds s3) s3) as [[s4 e4]|] eqn:E4; [|discriminate H]. injection H as _ <-. cbn [snd].
  exists s1. split.
  - unfold all_matched. rewrite <- (for_each_erase (fun kv : key * pair => execute_matching_e iter (snd kv)) (fun kv => execute_matching iter (snd kv)) (st_pairs s) (fun x y => execute_matching_erase iter (snd x) y)), E1. reflexivity.
  - intros n d. rewrite !total_app.
    apply for_each_silent in E2; [|intros [k o] x x' e X; unfold expire_order_e in X; cbn [snd] in X; destruct (_ && _); [exact (finish_silent _ _ _ _ _ X)|]; destruct (of_res _) as [[|]|]; [exact (finish_silent _ _ _ _ _ X)|injection X as _ <-; constructor|discriminate X]].
    apply for_each_silent in E3; [|intros [k o] x x' e X; unfold execute_dep_if_e in X; cbn [snd] in X; destruct (dr_status o); [exact (execute_dep_silent _ _ _ _ X)|injection X as _ <-; constructor..]].
    apply for_each_silent in E4; [|intros [k o] x x' e X; unfold execute_wd_if_e in X; cbn [snd] in X; destruct (wr_status o); [exact (execute_wd_silent _ _ _ _ X)|injection X as _ <-; constructor..]].
    destruct (silent_total n d _ E2) as [-> ->], (silent_total n d _ E3) as [-> ->], (silent_total n d _ E4) as [-> ->]. rewrite (P1 n d). lia.
Qed.
