(** Events (C84): what is reported about requests, and the whole batch. *)
From Verif Require Import Base Dec DecProofs OrderModel MatchModel MatchSpec MatchProofs PoolModel KeeperModel KeeperLib KeeperSpec KeeperMicro KeeperSteps KeeperOrders KeeperReqs KeeperInv KeeperBank KeeperHist GenesisProofs KeeperTrade KeeperBlock EventModel EventSpec EventProofs EventOrders.

(** ** Requests *)
Definition dtells (s : state) (ev : list event) (s' : state) : Prop := forall n j,
  match mget (st_deps s) (n, j) with
  | None => mget (st_deps s') (n, j) = None /\ filter (on_deposit n j) ev = []
  | Some r => exists r', mget (st_deps s') (n, j) = Some r' /\
      match dr_status r with RNotExecuted => deposit_told n j r' ev | _ => r' = r /\ filter (on_deposit n j) ev = [] end
  end.
Definition wtells (s : state) (ev : list event) (s' : state) : Prop := forall n j,
  match mget (st_wds s) (n, j) with
  | None => mget (st_wds s') (n, j) = None /\ filter (on_withdrawal n j) ev = []
  | Some r => exists r', mget (st_wds s') (n, j) = Some r' /\
      match wr_status r with RNotExecuted => withdrawal_told n j r' ev | _ => r' = r /\ filter (on_withdrawal n j) ev = [] end
  end.
Lemma deposit_told_filter n j r a b : filter (on_deposit n j) a = filter (on_deposit n j) b -> deposit_told n j r a -> deposit_told n j r b.
Proof. intros E. unfold deposit_told. rewrite E. auto. Qed.
Lemma withdrawal_told_filter n j r a b : filter (on_withdrawal n j) a = filter (on_withdrawal n j) b -> withdrawal_told n j r a -> withdrawal_told n j r b.
Proof. intros E. unfold withdrawal_told. rewrite E. auto. Qed.
Lemma no_req_dep ev n j : Forall no_req ev -> filter (on_deposit n j) ev = [].
Proof. induction 1 as [|e ev H _ IH]; [reflexivity|]. destruct e; cbn in *; try exact IH; destruct H. Qed.
Lemma no_req_wd ev n j : Forall no_req ev -> filter (on_withdrawal n j) ev = [].
Proof. induction 1 as [|e ev H _ IH]; [reflexivity|]. destruct e; cbn in *; try exact IH; destruct H. Qed.
Lemma dtells_quiet s ev s' : st_deps s' = st_deps s -> (forall n j, filter (on_deposit n j) ev = []) -> dtells s ev s'.
Proof.
  intros E F n j. rewrite E. destruct (mget (st_deps s) (n, j)) as [r|]; [|auto]. exists r. split; [reflexivity|]. unfold deposit_told. destruct (dr_status r); auto.
Qed.
Lemma wtells_quiet s ev s' : st_wds s' = st_wds s -> (forall n j, filter (on_withdrawal n j) ev = []) -> wtells s ev s'.
Proof.
  intros E F n j. rewrite E. destruct (mget (st_wds s) (n, j)) as [r|]; [|auto]. exists r. split; [reflexivity|]. unfold withdrawal_told. destruct (wr_status r); auto.
Qed.
Lemma dtells_trans a l1 b l2 c : dtells a l1 b -> dtells b l2 c -> dtells a (l1 ++ l2) c.
Proof.
  intros A B n j. specialize (A n j). specialize (B n j). rewrite filter_app. destruct (mget (st_deps a) (n, j)) as [r|].
  - destruct A as (r1 & G1 & T1). rewrite G1 in B. destruct B as (r2 & G2 & T2). exists r2. split; [exact G2|].
    assert (Keep : deposit_told n j r1 l1 -> r2 = r1 /\ filter (on_deposit n j) l2 = [] -> deposit_told n j r2 (l1 ++ l2)).
    { intros T [-> E]. refine (deposit_told_filter _ _ _ _ _ _ T). rewrite filter_app, E, app_nil_r. reflexivity. }
    destruct (dr_status r) eqn:Sr.
    + destruct (dr_status r1) eqn:S1; [|exact (Keep T1 T2)|exact (Keep T1 T2)].
      refine (deposit_told_filter _ _ _ _ _ _ T2). unfold deposit_told in T1. rewrite S1 in T1. rewrite filter_app, T1. reflexivity.
    + destruct T1 as [-> T1]. rewrite Sr in T2. destruct T2 as [-> T2]. rewrite T1, T2. auto.
    + destruct T1 as [-> T1]. rewrite Sr in T2. destruct T2 as [-> T2]. rewrite T1, T2. auto.
  - destruct A as [G1 T1]. rewrite G1 in B. destruct B as [G2 T2]. rewrite T1, T2. auto.
Qed.
Lemma wtells_trans a l1 b l2 c : wtells a l1 b -> wtells b l2 c -> wtells a (l1 ++ l2) c.
Proof.
  intros A B n j. specialize (A n j). specialize (B n j). rewrite filter_app. destruct (mget (st_wds a) (n, j)) as [r|].
  - destruct A as (r1 & G1 & T1). rewrite G1 in B. destruct B as (r2 & G2 & T2). exists r2. split; [exact G2|].
    assert (Keep : withdrawal_told n j r1 l1 -> r2 = r1 /\ filter (on_withdrawal n j) l2 = [] -> withdrawal_told n j r2 (l1 ++ l2)).
    { intros T [-> E]. refine (withdrawal_told_filter _ _ _ _ _ _ T). rewrite filter_app, E, app_nil_r. reflexivity. }
    destruct (wr_status r) eqn:Sr.
    + destruct (wr_status r1) eqn:S1; [|exact (Keep T1 T2)|exact (Keep T1 T2)].
      refine (withdrawal_told_filter _ _ _ _ _ _ T2). unfold withdrawal_told in T1. rewrite S1 in T1. rewrite filter_app, T1. reflexivity.
    + destruct T1 as [-> T1]. rewrite Sr in T2. destruct T2 as [-> T2]. rewrite T1, T2. auto.
    + destruct T1 as [-> T1]. rewrite Sr in T2. destruct T2 as [-> T2]. rewrite T1, T2. auto.
  - destruct A as [G1 T1]. rewrite G1 in B. destruct B as [G2 T2]. rewrite T1, T2. auto.
Qed.

(** ** Executing a deposit *)
Definition dep_done (s : state) (r : dreq) (s' : state) (ev : list event) : Prop :=
  exists acc pc refund st, st <> RNotExecuted /\
    st_deps s' = mset (st_deps s) (dr_pool r, dr_id r) (mkDreq (dr_id r) (dr_pool r) (dr_height r) (dr_owner r) (dr_coins r) acc pc st) /\
    ev = [DepositResult (dr_id r) (dr_owner r) (dr_pool r) (dr_coins r) acc refund pc st] /\ (forall d, amount_of refund d = amount_of (dr_coins r) d - amount_of acc d) /\
    st_orders s' = st_orders s /\ st_wds s' = st_wds s.
Lemma finish_dep_done s r st s' ev : dr_status r = RNotExecuted -> st <> RNotExecuted -> valid_coins (dr_coins r) = true -> valid_coins (dr_accepted r) = true ->
  finish_dep_e s r st = Some (s', ev) -> dep_done s r s' ev.
Proof.
  intros P N V Va H. unfold finish_dep_e, finish_dep in H. rewrite P in H. destruct (coins_sub (dr_coins r) (dr_accepted r)) as [refund|] eqn:Er; [|discriminate H].
  destruct (coins_sub_spec _ _ _ V Va Er) as (_ & _ & Ar). exists (dr_accepted r), (dr_minted r), refund, st. split; [exact N|].
  assert (X : exists b, s' = put_dep (set_bank s b) (mkDreq (dr_id r) (dr_pool r) (dr_height r) (dr_owner r) (dr_coins r) (dr_accepted r) (dr_minted r) st) /\ ev = [DepositResult (dr_id r) (dr_owner r) (dr_pool r) (dr_coins r) (dr_accepted r) refund (dr_minted r) st]).
  { destruct refund as [|c cs].
    - injection H as <- <-. exists (st_bank s). split; [destruct s; reflexivity|reflexivity].
    - destruct (st_send _ _ _ _) as [s1|] eqn:Es; [|discriminate H]. apply st_send_spec in Es. destruct Es as (b & -> & _). injection H as <- <-. exists b. auto. }
  destruct X as (b & -> & ->). split; [reflexivity|]. split; [reflexivity|]. split; [exact Ar|]. split; reflexivity.
Qed.
Lemma execute_dep_done (Q : ctl) r s s' ev : inv Q s -> mget (st_deps s) (dr_pool r, dr_id r) = Some r -> dr_status r = RNotExecuted -> execute_dep_e s r = Some (s', ev) -> dep_done s r s' ev.
Proof.
  intros I G P H. destruct (i_deps _ (v_str _ _ I) _ _ G) as (_ & _ & V & _ & _ & A). destruct (A P) as [A1 A2].
  assert (Va : valid_coins (dr_accepted r) = true) by (rewrite A1; reflexivity).
  unfold execute_dep_e in H. destruct (get_pool s (dr_pool r)) as [p|] eqn:Ep; [|discriminate H].
  destruct (pl_disabled p); [refine (finish_dep_done _ _ RFailed _ _ P _ V Va H); discriminate|].
  destruct (get_pair s (pl_pair p)) as [pr|] eqn:Epr; [|discriminate H]. cbn zeta in H. destruct (of_res (amm_pool _ _ _ _)) as [ap|]; [|discriminate H].
  destruct (is_depleted ap). { refine (finish_dep_done (mark_disabled s p) r RFailed _ _ P _ V Va H); discriminate. }
  destruct (of_res (deposit _ _ _ _ _)) as [[[ax ay] pc]|]; [|discriminate H]. destruct (pc =? 0); [refine (finish_dep_done _ _ RFailed _ _ P _ V Va H); discriminate|].
  destruct (new_coins [(PoolCoin (pl_id p), pc)]) as [minting|]; [|discriminate H]. destruct (new_coins [(pr_quote pr, ax); (pr_base pr, ay)]) as [acc|] eqn:Ea; [|discriminate H].
  destruct (bulk_run _ _) as [b2|]; [|discriminate H]. pose proof (i_pairs _ (v_str _ _ I) _ _ Epr) as (_ & _ & Nbq & _).
  assert (Nqb : pr_quote pr <> pr_base pr) by congruence. destruct (new_coins_two_spec _ _ _ _ _ Nqb Ea) as (_ & _ & Vac & _).
  match type of H with finish_dep_e ?x ?y ?z = _ => exact (finish_dep_done x y z s' ev P ltac:(discriminate) V Vac H) end.
Qed.
(** ** Executing a withdrawal *)
Definition wd_done (s : state) (r : wreq) (s' : state) (ev : list event) : Prop :=
  exists w st, st <> RNotExecuted /\
    st_wds s' = mset (st_wds s) (wr_pool r, wr_id r) (mkWreq (wr_id r) (wr_pool r) (wr_height r) (wr_owner r) (wr_denom r) (wr_amt r) w st) /\
    ev = [WithdrawalResult (wr_id r) (wr_owner r) (wr_pool r) (wr_denom r) (wr_amt r) (match st with RFailed => [(wr_denom r, wr_amt r)] | _ => [] end) w st] /\
    st_orders s' = st_orders s /\ st_deps s' = st_deps s.
Lemma finish_wd_done s r st s' ev : wr_status r = RNotExecuted -> st <> RNotExecuted -> finish_wd_e s r st = Some (s', ev) -> wd_done s r s' ev.
Proof.
  intros P N H. unfold finish_wd_e, finish_wd in H. rewrite P in H. exists (wr_withdrawn r), st. split; [exact N|]. destruct st; [congruence| |].
  - injection H as <- <-. split; [reflexivity|]. split; [reflexivity|]. split; reflexivity.
  - destruct (st_send _ _ _ _) as [s1|] eqn:Es; [|discriminate H]. apply st_send_spec in Es. destruct Es as (b & -> & _). injection H as <- <-. split; [reflexivity|]. split; [reflexivity|]. split; reflexivity.
Qed.
Lemma execute_wd_done r s s' ev : wr_status r = RNotExecuted -> execute_wd_e s r = Some (s', ev) -> wd_done s r s' ev.
Proof.
  intros P H. unfold execute_wd_e in H. destruct (get_pool s (wr_pool r)) as [p|] eqn:Ep; [|discriminate H].
  destruct (pl_disabled p); [refine (finish_wd_done _ _ RFailed _ _ P _ H); discriminate|].
  destruct (get_pair s (pl_pair p)) as [pr|] eqn:Epr; [|discriminate H]. cbn zeta in H. destruct (of_res (amm_pool _ _ _ _)) as [ap|]; [|discriminate H].
  destruct (is_depleted ap). { refine (finish_wd_done (mark_disabled s p) r RFailed _ _ P _ H); discriminate. }
  destruct (of_res (withdraw _ _ _ _ _)) as [[x y]|]; [|discriminate H]. destruct ((x =? 0) && (y =? 0)); [refine (finish_wd_done _ _ RFailed _ _ P _ H); discriminate|].
  destruct (new_coins [(pr_quote pr, x); (pr_base pr, y)]) as [w|]; [|discriminate H]. destruct (new_coins [(wr_denom r, wr_amt r)]) as [burning|]; [|discriminate H].
  destruct (bulk_run _ _) as [b1|]; [|discriminate H]. destruct (burn b1 burning) as [b2|]; [|discriminate H].
  destruct (wr_amt r =? pool_ps s p).
  - match type of H with finish_wd_e ?x ?y ?z = _ => exact (finish_wd_done x y z s' ev P ltac:(discriminate) H) end.
  - match type of H with finish_wd_e ?x ?y ?z = _ => exact (finish_wd_done x y z s' ev P ltac:(discriminate) H) end.
Qed.

(** ** All three at once *)
Definition all_tells (s : state) (ev : list event) (s' : state) : Prop := tells s ev s' /\ dtells s ev s' /\ wtells s ev s'.
Lemma all_trans a l1 b l2 c : all_tells a l1 b -> all_tells b l2 c -> all_tells a (l1 ++ l2) c.
Proof. intros (A1 & A2 & A3) (B1 & B2 & B3). split; [exact (tells_trans _ _ _ _ _ A1 B1)|]. split; [exact (dtells_trans _ _ _ _ _ A2 B2)|exact (wtells_trans _ _ _ _ _ A3 B3)]. Qed.
Lemma all_refl s : all_tells s [] s.
Proof. split; [apply tells_same; reflexivity|]. split; [apply dtells_quiet|apply wtells_quiet]; reflexivity. Qed.
Lemma orders_only s ev s' : tells s ev s' -> Forall no_req ev -> st_deps s' = st_deps s -> st_wds s' = st_wds s -> all_tells s ev s'.
Proof.
  intros T N D W. split; [exact T|]. split; [apply dtells_quiet; [exact D|intros n j; apply no_req_dep; exact N]|apply wtells_quiet; [exact W|intros n j; apply no_req_wd; exact N]].
Qed.
Lemma dep_done_all s r s' ev : mget (st_deps s) (dr_pool r, dr_id r) = Some r -> dr_status r = RNotExecuted -> dep_done s r s' ev -> all_tells s ev s'.
Proof.
  intros G P (acc & pc & refund & st & N & E & -> & Ar & Eo & Ew). split; [|split].
  - refine (tells_quiet _ [] _ _ _ (tells_same _ _ Eo)). reflexivity.
  - intros n j. rewrite E, mget_mset. destruct (key_eqb_spec (n, j) (dr_pool r, dr_id r)) as [X|X].
    + injection X as -> ->. rewrite G, P. eexists. split; [reflexivity|]. unfold deposit_told. cbn [dr_status dr_owner dr_coins dr_accepted dr_minted filter on_deposit]. rewrite !Z.eqb_refl. cbn [andb].
      destruct st; [congruence| |]; exists refund; auto.
    + assert (Y : (dr_pool r =? n) && (dr_id r =? j) = false) by (apply andb_false_iff; destruct (Z.eqb_spec (dr_pool r) n), (Z.eqb_spec (dr_id r) j); auto; exfalso; apply X; congruence).
      assert (F : filter (on_deposit n j) [DepositResult (dr_id r) (dr_owner r) (dr_pool r) (dr_coins r) acc refund pc st] = []) by (cbn [filter on_deposit]; rewrite Y; reflexivity).
      destruct (mget (st_deps s) (n, j)) as [x|]; [|auto]. exists x. split; [reflexivity|]. unfold deposit_told. rewrite F. destruct (dr_status x); auto.
  - apply wtells_quiet; [exact Ew|reflexivity].
Qed.
Lemma wd_done_all s r s' ev : mget (st_wds s) (wr_pool r, wr_id r) = Some r -> wr_status r = RNotExecuted -> wd_done s r s' ev -> all_tells s ev s'.
Proof.
  intros G P (w & st & N & E & -> & Eo & Ed). split; [|split].
  - refine (tells_quiet _ [] _ _ _ (tells_same _ _ Eo)). reflexivity.
  - apply dtells_quiet; [exact Ed|reflexivity].
  - intros n j. rewrite E, mget_mset. destruct (key_eqb_spec (n, j) (wr_pool r, wr_id r)) as [X|X].
    + injection X as -> ->. rewrite G, P. eexists. split; [reflexivity|]. unfold withdrawal_told. cbn [wr_status wr_owner wr_denom wr_amt wr_withdrawn filter on_withdrawal]. rewrite !Z.eqb_refl. cbn [andb].
      destruct st; [congruence| |]; reflexivity.
    + assert (Y : (wr_pool r =? n) && (wr_id r =? j) = false) by (apply andb_false_iff; destruct (Z.eqb_spec (wr_pool r) n), (Z.eqb_spec (wr_id r) j); auto; exfalso; apply X; congruence).
      match goal with |- context [filter (on_withdrawal n j) ?l] => assert (F : filter (on_withdrawal n j) l = []) by (cbn [filter on_withdrawal]; rewrite Y; reflexivity) end.
      destruct (mget (st_wds s) (n, j)) as [x|]; [|auto]. exists x. split; [reflexivity|]. unfold withdrawal_told. rewrite F. destruct (wr_status x); auto.
Qed.

(** ** Loops over a snapshot *)
Lemma snap_tells {V} (Q : ctl) (proj : state -> amap V) (f : V -> state -> option (state * list event)) l :
  (forall k v s s' ev, inv Q s -> mget (proj s) k = Some v -> f v s = Some (s', ev) ->
     mics Q s s' /\ (forall k', k' <> k -> mget (proj s') k' = mget (proj s) k') /\ all_tells s ev s') ->
  NoDup (map fst l) -> forall s s' ev, inv Q s -> (forall k v, In (k, v) l -> mget (proj s) k = Some v) ->
  for_each_e (fun kv : key * V => f (snd kv)) l s = Some (s', ev) -> mics Q s s' /\ all_tells s ev s'.
Proof.
  intros Hf. induction l as [|[k v] l IH]; intros N s s' ev I C H; cbn [for_each_e snd] in H; [injection H as <- <-; split; [constructor|apply all_refl]|].
  destruct (f v s) as [[s1 e1]|] eqn:E; [|discriminate H]. cbn [fst snd] in H. destruct (for_each_e _ l s1) as [[s2 e2]|] eqn:E2; [|discriminate H]. injection H as <- <-. cbn [map fst] in N. apply NoDup_cons_iff in N. destruct N as [N1 N2].
  destruct (Hf k v s s1 e1 I (C _ _ (or_introl eq_refl)) E) as (M & O & T).
  destruct (IH N2 s1 s2 e2 (inv_mics Q _ _ M I)) with (2 := E2) as [M2 T2].
  { intros k' v' X. rewrite O; [apply C; right; assumption|]. intros ->. apply N1. change k with (fst (k, v')). apply in_map. assumption. }
  cbn [fst]. split; [exact (mics_trans _ _ _ _ M M2)|exact (all_trans _ _ _ _ _ T T2)].
Qed.

Lemma match_stage_tells (Q : ctl) iter s s' ev : is_perm_iter iter -> inv Q s -> (forall p, Q p -> sane_ratio p) -> stage_of Q = STrade ->
  for_each_e (fun kv : key * pair => execute_matching_e iter (snd kv)) (st_pairs s) s = Some (s', ev) -> mics Q s s' /\ all_tells s ev s'.
Proof.
  intros Hi I HQ T H. refine (snap_tells Q st_pairs (execute_matching_e iter) (st_pairs s) _ _ s s' ev I _ H).
  - intros k pr s1 s2 e I1 G E. pose proof (pairs_key Q _ _ _ I1 G) as ->. pose proof (f_equal only E) as E0. rewrite execute_matching_erase in E0. cbn [only] in E0.
    destruct (execute_matching_spec Q iter pr s1 s2 Hi I1 HQ T G E0) as (ss & price & hu & ps & _ & _ & M & P & D & W & _). split; [assumption|]. split; [intros k' Nk; rewrite P; apply mget_mset_neq; assumption|].
    destruct (matching_tells Q iter pr s1 s2 e Hi I1 HQ T G E) as [Te Nr]. exact (orders_only _ _ _ Te Nr D W).
  - apply msorted_NoDup, (i_pairs_sorted _ (v_str _ _ I)).
  - intros k v X. apply snap_current; [apply (i_pairs_sorted _ (v_str _ _ I))|assumption].
Qed.
Lemma finish_reqs s o st s' ev : finish_order_e s o st = Some (s', ev) -> st_deps s' = st_deps s /\ st_wds s' = st_wds s.
Proof.
  intros H. destruct (live o) eqn:L; [destruct (finish_order_e_spec _ _ _ _ _ L H) as (_ & _ & R); destruct R as (_ & _ & _ & _ & _ & D & W & _); auto|].
  destruct (finish_order_e_dead _ _ _ _ _ L H) as [-> _]. auto.
Qed.
Lemma finish_all s o st s' ev : get_order s (ko_pair o) (ko_id o) = Some o -> o_terminal st = true -> finish_order_e s o st = Some (s', ev) -> all_tells s ev s'.
Proof.
  intros G T H. destruct (finish_reqs _ _ _ _ _ H) as [D W]. exact (orders_only _ _ _ (finish_tells s o st s' ev G T H) (finish_no_req _ _ _ _ _ H) D W).
Qed.
Lemma expire_all (Q : ctl) k o s s' ev : inv Q s -> mget (st_orders s) k = Some o -> expire_order_e o s = Some (s', ev) -> all_tells s ev s'.
Proof.
  intros I G H. destruct (i_orders _ (v_str _ _ I) _ _ G) as (-> & _). unfold expire_order_e in H. destruct (_ && _); [exact (finish_all s o OExpired s' ev G eq_refl H)|].
  destruct (of_res _) as [sm|]; [|discriminate H]. destruct sm; [exact (finish_all s o OExpired s' ev G eq_refl H)|]. injection H as <- <-. apply all_refl.
Qed.
Lemma expire_erase o s : only (expire_order_e o s) = expire_order o s.
Proof. unfold expire_order_e, expire_order. destruct (_ && _); [apply finish_order_erase|]. destruct (of_res _) as [sm|]; [|reflexivity]. destruct sm; [apply finish_order_erase|reflexivity]. Qed.
Lemma expire_stage_tells (Q : ctl) s s' ev : batching Q -> inv Q s -> for_each_e (fun kv => expire_order_e (snd kv)) (st_orders s) s = Some (s', ev) -> mics Q s s' /\ all_tells s ev s'.
Proof.
  intros B I H. pose proof (i_orders_sorted _ (v_str _ _ I)) as S. refine (snap_tells Q st_orders expire_order_e (st_orders s) _ (msorted_NoDup _ S) s s' ev I (fun k v => snap_current _ k v S) H).
  intros k o a b e Ia G F. pose proof (f_equal only F) as F0. rewrite expire_erase in F0. cbn [only] in F0. destruct (expire_mics Q o k a b B Ia G F0) as [M O]. split; [exact M|]. split; [exact O|exact (expire_all Q k o a b e Ia G F)].
Qed.
Lemma dep_stage_tells (Q : ctl) s s' ev : stage_of Q = SReq -> inv Q s -> for_each_e (fun kv => execute_dep_if_e (snd kv)) (st_deps s) s = Some (s', ev) -> mics Q s s' /\ all_tells s ev s'.
Proof.
  intros HS I H. pose proof (i_deps_sorted _ (v_str _ _ I)) as S. refine (snap_tells Q st_deps execute_dep_if_e (st_deps s) _ (msorted_NoDup _ S) s s' ev I (fun k v => snap_current _ k v S) H).
  intros k r a b e Ia G F. destruct (i_deps _ (v_str _ _ Ia) _ _ G) as (-> & _). unfold execute_dep_if_e in F. destruct (dr_status r) eqn:P; [|injection F as <- <-; split; [constructor|split; [reflexivity|apply all_refl]]..].
  pose proof (f_equal only F) as F0. rewrite execute_dep_erase in F0. cbn [only] in F0. destruct (execute_dep_mics Q r a b HS Ia G P F0) as [M O]. split; [exact M|]. split; [exact O|].
  exact (dep_done_all a r b e G P (execute_dep_done Q r a b e Ia G P F)).
Qed.
Lemma wd_stage_tells (Q : ctl) s s' ev : stage_of Q = SReq -> inv Q s -> for_each_e (fun kv => execute_wd_if_e (snd kv)) (st_wds s) s = Some (s', ev) -> mics Q s s' /\ all_tells s ev s'.
Proof.
  intros HS I H. pose proof (i_wds_sorted _ (v_str _ _ I)) as S. refine (snap_tells Q st_wds execute_wd_if_e (st_wds s) _ (msorted_NoDup _ S) s s' ev I (fun k v => snap_current _ k v S) H).
  intros k r a b e Ia G F. destruct (i_wds _ (v_str _ _ Ia) _ _ G) as (-> & _). unfold execute_wd_if_e in F. destruct (wr_status r) eqn:P; [|injection F as <- <-; split; [constructor|split; [reflexivity|apply all_refl]]..].
  pose proof (f_equal only F) as F0. rewrite execute_wd_erase in F0. cbn [only] in F0. destruct (execute_wd_mics Q r a b HS Ia G P F0) as [M O]. split; [exact M|]. split; [exact O|].
  exact (wd_done_all a r b e G P (execute_wd_done r a b e P F)).
Qed.
Theorem end_block_tells (A : params -> Prop) iter s s' ev : is_perm_iter iter -> inv (mkCtl A SMsg) s -> (forall p, A p -> sane_ratio p) -> end_block_e iter s = Some (s', ev) -> all_tells s ev s'.
Proof.
  intros Hi I HQ H. unfold end_block_e in H. destruct (_ =? 0); [|injection H as <- <-; apply all_refl]. unfold execute_requests_e in H. apply (inv_ctl _ STrade) in I. cbn [allowed] in I.
  destruct (for_each_e _ (st_pairs s) s) as [[s1 e1]|] eqn:E1; [|discriminate H]. cbn [fst snd] in H. destruct (match_stage_tells (mkCtl A STrade) iter s s1 e1 Hi I HQ eq_refl E1) as [M1 T1]. pose proof (inv_mics _ _ _ M1 I) as I1. apply (inv_ctl _ SReq) in I1. cbn [allowed] in I1.
  destruct (for_each_e _ (st_orders s1) s1) as [[s2 e2]|] eqn:E2; [|discriminate H]. cbn [fst snd] in H. destruct (expire_stage_tells (mkCtl A SReq) s1 s2 e2 (or_intror eq_refl) I1 E2) as [M2 T2]. pose proof (inv_mics _ _ _ M2 I1) as I2.
  destruct (for_each_e _ (st_deps s2) s2) as [[s3 e3]|] eqn:E3; [|discriminate H]. cbn [fst snd] in H. destruct (dep_stage_tells (mkCtl A SReq) s2 s3 e3 eq_refl I2 E3) as [M3 T3]. pose proof (inv_mics _ _ _ M3 I2) as I3.
  destruct (for_each_e _ (st_wds s3) s3) as [[s4 e4]|] eqn:E4; [|discriminate H]. injection H as <- <-. destruct (wd_stage_tells (mkCtl A SReq) s3 s4 e4 eq_refl I3 E4) as [M4 T4].
  exact (all_trans _ _ _ _ _ T1 (all_trans _ _ _ _ _ T2 (all_trans _ _ _ _ _ T3 T4))).
Qed.
