(** Events (C84): what the match events say is one trade each. *)
From Verif Require Import Base Dec DecProofs OrderModel MatchModel MatchSpec MatchProofs PoolModel KeeperModel KeeperLib KeeperSpec KeeperMicro KeeperSteps KeeperOrders KeeperReqs KeeperInv KeeperBank KeeperHist GenesisProofs KeeperTrade KeeperBlock EventModel EventSpec EventProofs EventOrders EventReqs EventPools MatchTop .

Definition even_order (o : order) : Prop := is_matched o = true -> o_amt o - o_open o = base_moved (o_dir o) (o_paid o) (o_recv o).
Definition good_result (pr : pair) (seen : list (Z * dir)) (r : pool_result) : Prop := right_coins pr seen r /\ ps_matched r = base_moved (ps_dir r) (ps_paid r) (ps_recv r).
Lemma note_pool_good pr seen id dr x y m acc : Forall (good_result pr seen) acc -> existsb (fun z => (fst z =? id) && negb (dir_eqb (snd z) dr)) seen = false -> m = base_moved dr x y -> NoDup (map ps_pool acc) ->
  let acc' := note_pool acc id dr (offer_denom_of pr dr) x (demand_denom_of pr dr) y m in
  Forall (good_result pr ((id, dr) :: seen)) acc' /\ NoDup (map ps_pool acc') /\ forall k, In k (map ps_pool acc') -> k = id \/ In k (map ps_pool acc).
Proof.
  intros F E Em. assert (U : forall d0, In (id, d0) seen -> d0 = dr).
  { intros d0 X. destruct (dir_eqb d0 dr) eqn:Ed; [destruct d0, dr; first [reflexivity|discriminate Ed]|]. exfalso. assert (Y : existsb (fun z => (fst z =? id) && negb (dir_eqb (snd z) dr)) seen = true); [|congruence].
    apply existsb_exists. exists (id, d0). split; [exact X|]. cbn [fst snd]. rewrite Z.eqb_refl, Ed. reflexivity. }
  assert (Wk : forall r, good_result pr seen r -> good_result pr ((id, dr) :: seen) r) by (intros r ((A & B) & D); split; [split; [right; exact A|exact B]|exact D]).
  cbn zeta. induction F as [|r acc [(A1 & A2 & A3) A4] F IH]; intros N; cbn [note_pool].
  - split; [constructor; [|constructor]; split; [split; [left; reflexivity|split; reflexivity]|exact Em]|]. cbn [map ps_pool]. split; [constructor; [intros []|constructor]|]. intros k [<-|[]]. left. reflexivity.
  - cbn [map] in N. apply NoDup_cons_iff in N. destruct N as [N1 N2]. destruct (Z.eqb_spec (ps_pool r) id) as [Ei|Ni].
    + assert (Ed : ps_dir r = dr) by (apply U; rewrite <- Ei; exact A1). split; [|split].
      * constructor; [|eapply Forall_impl; [|exact F]; exact Wk]. split; [split; [left; cbn [ps_pool ps_dir]; rewrite Ed; reflexivity|]; cbn [ps_dir ps_paid_denom ps_recv_denom]; auto|].
        cbn [ps_matched ps_dir ps_paid ps_recv]. rewrite A4, Em, Ed. destruct dr; cbn [base_moved]; lia.
      * cbn [map ps_pool]. constructor; [rewrite <- Ei; exact N1|exact N2].
      * cbn [map ps_pool]. intros k [<-|X]; [left; reflexivity|right; right; exact X].
    + destruct (IH N2) as (I1 & I2 & I3). split; [|split].
      * constructor; [apply Wk; split; [split; [exact A1|auto]|exact A4]|exact I1].
      * cbn [map]. constructor; [|exact I2]. intros X. destruct (I3 _ X) as [Y|Y]; [exact (Ni Y)|exact (N1 Y)].
      * cbn [map]. intros k [<-|X]; [right; left; reflexivity|]. destruct (I3 k X) as [Y|Y]; [left; exact Y|right; right; exact Y].
Qed.
Definition user_trade (i : Z) (e : event) : Prop :=
  match e with
  | UserOrderMatched d _ p _ m _ paid _ received => p = i /\ m = base_moved d paid received
  | PoolOrderMatched _ _ _ _ _ _ _ _ => False
  | _ => True
  end.
Lemma finish_dirs s o st s' ev i : finish_order_e s o st = Some (s', ev) -> Forall (user_trade i) ev.
Proof. unfold finish_order_e. intros H. destruct (finish_order s o st); [|discriminate H]. injection H as _ <-. destruct (o_terminal _); repeat constructor. Qed.
Lemma apply_orders_trades pr os : forall s q seen acc s' q' ev acc', (forall i j o, get_order s i j = Some o -> ko_pair o = i /\ ko_id o = j) -> Forall (filled_entry s (pr_id pr)) os -> NoDup (user_ids os) ->
  Forall even_order os -> Forall (good_result pr seen) acc -> NoDup (map ps_pool acc) -> apply_orders_e pr os s q seen acc = Some (s', q', ev, acc') ->
  Forall (user_trade (pr_id pr)) ev /\ NoDup (map ps_pool acc') /\ exists seen', Forall (good_result pr seen') acc'.
Proof.
  induction os as [|o os IH]; intros s q seen acc s' q' ev acc' Ky F NU Ev G0 N H; cbn [apply_orders_e] in H.
  - injection H as <- <- <- <-. split; [constructor|]. split; [exact N|]. exists seen. exact G0.
  - inversion F as [|? ? F1 F2]; subst. unfold user_ids in NU. cbn [flat_map] in NU. fold (user_ids os) in NU.
    assert (NU' : NoDup (user_ids os)) by (unfold uid in NU; destruct (o_kind o); [exact NU|inversion NU; assumption|exact NU]).
    apply Forall_cons_iff in Ev. destruct Ev as [E0 Ev].
    destruct (is_matched o) eqn:M; [|exact (IH _ _ _ _ _ _ _ _ Ky F2 NU' Ev G0 N H)]. destruct (F1 M) as (_ & _ & F1'). specialize (E0 M). destruct (o_kind o) as [|id|id] eqn:K; [discriminate H| |].
    + destruct F1' as (ko & G & L & Dk & _). rewrite G in H. destruct (ko_remaining ko <? o_paid o); [discriminate H|]. cbn zeta in H. set (ko' := ko_with_fill _ _ _ _) in H. destruct (Ky _ _ _ G) as [Ei Eid].
      match type of H with (match ?e with Some x => _ | None => None end) = _ => destruct e as [[s1 e1]|] eqn:Es; [|discriminate H] end. cbn [fst snd] in H.
      destruct (new_coins _) as [cs|]; [|discriminate H]. destruct (apply_orders_e pr os s1 _ seen acc) as [[[[s2 q2] ev2] acc2]|] eqn:E2; [|discriminate H]. injection H as <- <- <- <-.
      assert (Q1 : Forall (user_trade (pr_id pr)) e1) by (destruct (ko_open ko' =? 0); [exact (finish_dirs _ _ _ _ _ _ Es)|injection Es as _ <-; constructor]).
      assert (X : exists o1, st_orders s1 = mset (st_orders s) (ko_pair ko, ko_id ko) o1 /\ ko_pair o1 = ko_pair ko /\ ko_id o1 = ko_id ko).
      { destruct (ko_open ko' =? 0).
        - assert (L' : live ko' = true) by exact L. destruct (finish_order_e_spec _ _ _ _ _ L' Es) as (A & _). exists (ko_with_status ko' OCompleted). split; [exact A|split; reflexivity].
        - injection Es as <- <-. exists (ko_with_status ko' OPartiallyMatched). split; [reflexivity|split; reflexivity]. }
      destruct X as (o1 & A & A1 & A2).
      assert (Ky1 : forall i j x, get_order s1 i j = Some x -> ko_pair x = i /\ ko_id x = j).
      { intros i j x Gx. unfold get_order in *. rewrite A, mget_mset in Gx. match type of Gx with (if key_eqb ?a ?b then _ else _) = _ => destruct (key_eqb_spec a b) as [E|Ne] end; [|exact (Ky _ _ _ Gx)]. injection Gx as <-. injection E as E E'. split; congruence. }
      unfold uid in NU. rewrite K in NU. cbn [app] in NU. apply NoDup_cons_iff in NU. destruct NU as [NU1 _].
      assert (Fe : Forall (filled_entry s1 (pr_id pr)) os).
      { apply Forall_forall. intros x Hx Mx. destruct (proj1 (Forall_forall _ _) F2 x Hx Mx) as (X1 & X2 & X3). split; [exact X1|]. split; [exact X2|]. destruct (o_kind x) as [|id'|] eqn:Kx; auto.
        destruct X3 as (kx & Y1 & Y2). exists kx. split; [|exact Y2]. unfold get_order in *. rewrite A, mget_mset_neq; [exact Y1|]. rewrite Ei, Eid. intros Eq. injection Eq as Eq. apply NU1. rewrite <- Eq. unfold user_ids. apply in_flat_map. exists x. split; [exact Hx|].
        unfold uid. rewrite Kx. left. reflexivity. }
      destruct (IH _ _ _ _ _ _ _ _ Ky1 Fe NU' Ev G0 N E2) as (T & R). split; [|exact R]. apply Forall_app. split; [exact Q1|]. constructor; [|exact T]. split; [reflexivity|]. rewrite Dk. exact E0.
    + destruct (new_coins _) as [cs|]; [|discriminate H]. cbn zeta in H. destruct (existsb _ seen) eqn:Es; [discriminate H|].
      destruct (note_pool_good pr seen id (o_dir o) (o_paid o) (o_recv o) (o_amt o - o_open o) acc G0 Es E0 N) as (N1 & N2 & _). exact (IH _ _ _ _ _ _ _ _ Ky F2 NU' Ev N1 N2 H).
Qed.
Lemma even_wf o : wf_order o -> even_order o.
Proof. intros (_ & _ & _ & _ & W) _. unfold base_moved. destruct (o_dir o); [lia|destruct W; lia]. Qed.

(** One pair. *)
Lemma collect_quiet l i : forall s h s1 h1 ev, collect_orders_e l s h = Some (s1, h1, ev) -> Forall (user_trade i) ev.
Proof.
  induction l as [|[k o] l IH]; intros s h s1 h1 ev H; cbn [collect_orders_e] in H; [injection H as _ _ <-; constructor|].
  destruct (o_terminal (ko_status o)); [exact (IH _ _ _ _ _ H)|]. destruct (match ko_status o with ONotExecuted => false | _ => expired_at o (st_time s) end).
  - destruct (finish_order_e s o OExpired) as [[s2 e2]|] eqn:E; [|discriminate H]. cbn [fst snd] in H. destruct (collect_orders_e l s2 h) as [[[s3 h3] e3]|] eqn:E3; [|discriminate H]. injection H as _ _ <-. apply Forall_app. split; [exact (finish_dirs _ _ _ _ _ _ E)|exact (IH _ _ _ _ _ E3)].
  - destruct (of_res (user_order o)); [|discriminate H]. exact (IH _ _ _ _ _ H).
Qed.
Definition pair_trades (pr : pair) (e : event) : Prop :=
  match e with
  | UserOrderMatched d _ i _ m _ paid _ received => i = pr_id pr /\ m = base_moved d paid received
  | PoolOrderMatched d i _ m pd paid rd received => i = pr_id pr /\ pd = offer_denom_of pr d /\ rd = demand_denom_of pr d /\ m = base_moved d paid received
  | _ => True
  end.
Lemma user_pair pr e : user_trade (pr_id pr) e -> pair_trades pr e.
Proof. destruct e; cbn; try tauto. Qed.
Lemma named_user i ev : Forall (user_trade i) ev -> pools_named ev = [].
Proof. induction 1 as [|e ev X F IH]; [reflexivity|]. unfold pools_named in *. cbn [flat_map]. rewrite IH. destruct e; try reflexivity. destruct X. Qed.
Lemma named_app a b : pools_named (a ++ b) = pools_named a ++ pools_named b.
Proof. apply flat_map_app. Qed.
Lemma named_results i acc : pools_named (map (pool_event i) acc) = map (fun n => (i, n)) (map ps_pool acc).
Proof. induction acc as [|r acc IH]; [reflexivity|]. unfold pools_named in *. cbn [map flat_map]. rewrite IH. reflexivity. Qed.
Lemma matching_trades (Q : ctl) iter pr s s' ev : is_perm_iter iter -> inv Q s -> (forall p, Q p -> sane_ratio p) -> stage_of Q = STrade -> get_pair s (pr_id pr) = Some pr ->
  execute_matching_e iter pr s = Some (s', ev) -> Forall (pair_trades pr) ev /\ NoDup (pools_named ev).
Proof.
  intros Hi I HQ T Gp H. pose proof (f_equal only H) as H0. rewrite execute_matching_erase in H0. cbn [only] in H0.
  destruct (execute_matching_full Q iter pr s s' Hi I HQ T Gp H0) as (ss & price & hu & ps & MB & MS & _ & _ & _ & _ & _ & _ & _ & _ & R). destruct (mb_collect _ _ _ _ _ MB) as (s1 & C1 & C2).
  assert (Is : inv (mkCtl (allowed Q) STrade) ss) by (apply (inv_mics _ _ _ (MS STrade (or_introl eq_refl))); apply (proj1 (inv_ctl Q STrade s)); exact I).
  unfold execute_matching_e in H. destruct (collect_orders_e _ s []) as [[[s1' h] ev1]|] eqn:E1; [|discriminate H]. pose proof (f_equal only2 E1) as E1'. rewrite collect_orders_erase, C1 in E1'. cbn [only2] in E1'. injection E1' as <- <-.
  rewrite C2 in H. cbn [fst snd] in H. pose proof (collect_quiet _ (pr_id pr) _ _ _ _ _ E1) as Z1.
  assert (Only : Forall (pair_trades pr) ev1 /\ NoDup (pools_named ev1)) by (split; [eapply Forall_impl; [|exact Z1]; apply user_pair|rewrite (named_user _ _ Z1); constructor]).
  destruct (kmatch _ _ _ _ _) as [[hh mr]|] eqn:Ek; [|discriminate H]. cbn [fst snd] in H. destruct mr as [[[h2 mp] qd]|].
  2:{ injection H as _ <-. exact Only. }
  destruct R as [(_ & (h1 & Ek') & _)|(po & h & h2' & mp' & qd' & Ek' & _ & _ & _ & MD)]; [discriminate Ek'|]. injection Ek' as <- <- <- <-.
  destruct (apply_match_e ss pr _ qd) as [[s3 e3]|] eqn:Ea; [|discriminate H]. injection H as _ <-. cbn [snd].
  destruct (md_applied _ _ _ _ _ _ _ _ _ MD) as (Fe & Nu & _).
  assert (Hw : Forall wf_order hh) by (eapply Forall_impl; [|exact (md_fresh _ _ _ _ _ _ _ _ _ MD)]; exact fresh_wf).
  destruct (match_outcome_orders _ _ _ _ _ Hi Hw (md_outcome _ _ _ _ _ _ _ _ _ MD)) as (Ln & Wf' & _). destruct (book_ptrs hh) as [_ Rg].
  assert (Even : Forall even_order (map (get h2) (book_orders (new_order_book hh)))).
  { apply Forall_forall. intros o X. apply in_map_iff in X. destruct X as (p & <- & X). apply even_wf. rewrite Forall_forall in Wf'. apply Wf'. apply nth_In. rewrite Ln. exact (Rg p X). }
  unfold apply_match_e in Ea. destruct (queue_pool_payments pr _ []); [|discriminate Ea]. destruct (bulk_run _ _) as [b1|]; [|discriminate Ea].
  destruct (apply_orders_e pr _ _ [] [] []) as [[[[s4 q] ev4] acc]|] eqn:Eo; [|discriminate Ea]. destruct (new_coins _); [|discriminate Ea]. destruct (bulk_run (st_bank s4) _) as [b2|]; [|discriminate Ea]. injection Ea as _ <-.
  destruct (apply_orders_trades pr _ (set_bank ss b1) _ _ _ _ _ _ _ (inv_keyed _ _ Is) Fe Nu Even (Forall_nil _) (NoDup_nil _) Eo) as (T1 & T2 & seen & T3).
  split.
  - apply Forall_app. split; [exact (proj1 Only)|]. apply Forall_app. split; [eapply Forall_impl; [|exact T1]; apply user_pair|]. apply Forall_forall. intros e X. apply in_map_iff in X. destruct X as (r & <- & X). rewrite Forall_forall in T3. destruct (T3 r X) as ((_ & Y1 & Y2) & Y3). cbn. auto.
  - rewrite !named_app, (named_user _ _ Z1), (named_user _ _ T1), named_results. cbn [app]. apply FinFun.Injective_map_NoDup; [|exact T2]. intros x y E. injection E as E. exact E.
Qed.

(** A whole batch. *)
Definition pair_same (pr pr' : pair) : Prop := pr_id pr' = pr_id pr /\ pr_base pr' = pr_base pr /\ pr_quote pr' = pr_quote pr.
Lemma named_pair pr ev k : Forall (pair_trades pr) ev -> In k (pools_named ev) -> fst k = pr_id pr.
Proof.
  intros F X. apply in_flat_map in X. destruct X as (e & X & Y). rewrite Forall_forall in F. specialize (F e X). destruct e; try destruct Y. - subst k. cbn. exact (proj1 F). - destruct H.
Qed.
Lemma for_each_trades (Q : ctl) iter l : is_perm_iter iter -> (forall p, Q p -> sane_ratio p) -> stage_of Q = STrade -> NoDup (map fst l) -> forall s s' ev, inv Q s -> (forall k v, In (k, v) l -> mget (st_pairs s) k = Some v) ->
  for_each_e (fun kv : key * pair => execute_matching_e iter (snd kv)) l s = Some (s', ev) -> Forall (fun e => exists k pr, In (k, pr) l /\ k = (pr_id pr, 0) /\ pair_trades pr e) ev /\ NoDup (pools_named ev).
Proof.
  intros Hi HQ T. induction l as [|[k v] l IH]; intros N s s' ev I C H; cbn [for_each_e snd] in H; [injection H as <- <-; split; constructor|].
  destruct (execute_matching_e iter v s) as [[s1 e1]|] eqn:E; [|discriminate H]. cbn [fst snd] in H. destruct (for_each_e _ l s1) as [[s2 e2]|] eqn:E2; [|discriminate H]. injection H as <- <-. cbn [map fst] in N. apply NoDup_cons_iff in N. destruct N as [N1 N2].
  pose proof (C _ _ (or_introl eq_refl)) as G. pose proof (pairs_key Q _ _ _ I G) as ->. pose proof (f_equal only E) as E0. rewrite execute_matching_erase in E0. cbn [only] in E0.
  destruct (execute_matching_spec Q iter v s s1 Hi I HQ T G E0) as (ss & price & hu & ps & _ & _ & M & P & _).
  destruct (matching_trades Q iter v s s1 e1 Hi I HQ T G E) as [F1 D1].
  destruct (IH N2 s1 s2 e2 (inv_mics Q _ _ M I)) as [F2 D2]; [|exact E2|].
  { intros k' v' X. rewrite P, mget_mset_neq; [apply C; right; assumption|]. intros ->. apply N1. change (pr_id v, 0) with (fst ((pr_id v, 0), v')). apply in_map. assumption. }
  split.
  - apply Forall_app. split; [eapply Forall_impl; [|exact F1]|eapply Forall_impl; [|exact F2]].
    + intros e X. exists (pr_id v, 0), v. split; [left; reflexivity|]. split; [reflexivity|exact X].
    + intros e (k' & pr & X & Y). exists k', pr. split; [right; exact X|exact Y].
  - rewrite named_app. apply NoDup_app_intro; [exact D1|exact D2|]. intros x X1 X2. pose proof (named_pair v e1 x F1 X1) as Fx. apply in_flat_map in X2. destruct X2 as (e & X2 & X3). rewrite Forall_forall in F2. destruct (F2 e X2) as (k' & pr & Y1 & -> & Y2).
    destruct e; try (destruct X3; fail). destruct X3 as [<-|[]]. cbn [fst] in Fx. cbn in Y2. destruct Y2 as (Y2 & _). apply N1. replace (pr_id v) with (pr_id pr) by congruence. change (pr_id pr, 0) with (fst ((pr_id pr, 0), pr)). apply in_map. exact Y1.
Qed.
Lemma silent_named ev : Forall pool_silent ev -> pools_named ev = [].
Proof. induction 1 as [|e ev X F IH]; [reflexivity|]. unfold pools_named in *. cbn [flat_map]. rewrite IH. destruct e; try reflexivity. destruct X. Qed.
Theorem batch_trades (A : params -> Prop) iter s s' ev : is_perm_iter iter -> inv (mkCtl A SMsg) s -> (forall p, A p -> sane_ratio p) -> end_block_e iter s = Some (s', ev) -> Forall (trade_shown s) ev /\ NoDup (pools_named ev).
Proof.
  intros Hi I HQ H. unfold end_block_e in H. destruct (_ =? 0); [|injection H as _ <-; split; constructor]. unfold execute_requests_e in H. apply (inv_ctl _ STrade) in I. cbn [allowed] in I. pose proof (i_pairs_sorted _ (v_str _ _ I)) as Sp.
  destruct (for_each_e _ (st_pairs s) s) as [[s1 e1]|] eqn:E1; [|discriminate H]. cbn [fst snd] in H.
  destruct (for_each_trades (mkCtl A STrade) iter (st_pairs s) Hi HQ eq_refl (msorted_NoDup _ Sp) s s1 e1 I (fun k v => snap_current _ k v Sp) E1) as [F1 D1].
  destruct (for_each_e _ (st_orders s1) s1) as [[s2 e2]|] eqn:E2; [|discriminate H]. cbn [fst snd] in H. destruct (for_each_e _ (st_deps s2) s2) as [[s3 e3]|] eqn:E3; [|discriminate H]. cbn [fst snd] in H.
  destruct (for_each_e _ (st_wds s3) s3) as [[s4 e4]|] eqn:E4; [|discriminate H]. injection H as _ <-. cbn [snd].
  apply for_each_silent in E2; [|intros [k o] x x' e X; unfold expire_order_e in X; cbn [snd] in X; destruct (_ && _); [exact (finish_silent _ _ _ _ _ X)|]; destruct (of_res _) as [[|]|]; [exact (finish_silent _ _ _ _ _ X)|injection X as _ <-; constructor|discriminate X]].
  apply for_each_silent in E3; [|intros [k o] x x' e X; unfold execute_dep_if_e in X; cbn [snd] in X; destruct (dr_status o); [exact (execute_dep_silent _ _ _ _ X)|injection X as _ <-; constructor..]].
  apply for_each_silent in E4; [|intros [k o] x x' e X; unfold execute_wd_if_e in X; cbn [snd] in X; destruct (wr_status o); [exact (execute_wd_silent _ _ _ _ X)|injection X as _ <-; constructor..]].
  assert (Si : forall e, pool_silent e -> trade_shown s e) by (intros e X; destruct e; try exact Logic.I; destruct X). split.
  - apply Forall_app. split; [|apply Forall_app; split; [|apply Forall_app; split]]; (eapply Forall_impl; [|first [exact F1|exact E2|exact E3|exact E4]]; try exact Si).
    intros e (k & pr & X & -> & Y). pose proof (snap_current _ _ _ Sp X) as G. change (get_pair s (pr_id pr) = Some pr) in G. destruct e; try exact Logic.I; cbn in Y |- *.
    + destruct Y as (-> & Y). split; [rewrite G; reflexivity|exact Y].
    + destruct Y as (-> & Y1 & Y2 & Y3). split; [exists pr; split; [exact G|split; assumption]|exact Y3].
  - rewrite !named_app, (silent_named _ E2), (silent_named _ E3), (silent_named _ E4), !app_nil_r. exact D1.
Qed.
