(** Properties C38-C42, C48: counters, identifiers, uniqueness, limits, monotone status, batch heights.
    See Props_Keeper.v for [reach (sane Q)]. *)
From Verif Require Import Base Dec OrderModel MatchModel PoolModel KeeperModel KeeperLib KeeperSpec KeeperMicro KeeperBank KeeperSteps KeeperReqs KeeperTrade KeeperInv KeeperHist KeeperSettle KeeperMsgs KeeperBlock MatchProofs KeeperExample.

(** ** C38: the market making counter counts exactly the user's live market making orders in the
    pair, and never exceeds the largest maximum ever configured. *)
Theorem C38_mm_counter_exact : forall Q c a i, reach (sane Q) c -> st_mm (snd c) a i = live_mm_orders (snd c) a i.
Proof. intros Q c a i R. exact (reach_mm Q c R a i). Qed.
Print Assumptions C38_mm_counter_exact.
Theorem C38_mm_counter_bounded : forall (Q : params -> Prop) N c a i, (forall p, Q p -> pm_max_mm p <= N) -> reach (sane Q) c -> live_mm_orders (snd c) a i <= N.
Proof.
  intros Q N c a i H R. assert (0 <= N) by (destruct R as (s0 & (p & b & h & t & V & [HQ _] & _) & _); specialize (H p HQ); unfold valid_params in V; lia).
  rewrite <- (C38_mm_counter_exact Q c a i R). exact (reach_mm_bound Q N c H0 H R a i).
Qed.
Print Assumptions C38_mm_counter_bounded.
Example C38_example : reach (sane any_params) (after 1 trade2) /\ live_mm_orders (snd (after 1 trade2)) (User 1) 1 = 2 /\ live_mm_orders (snd (after 1 trade4)) (User 1) 1 = 1.
Proof. split; [apply after_reach; reflexivity|]. vm_compute. split; reflexivity. Qed.

(** ** C39: identifiers. *)

(** Each id names at most one object, ids are positive and at most the last one issued. *)
Theorem C39_ids_unique : forall Q c, reach (sane Q) c -> let s := snd c in
  (forall k1 k2 p q, In (k1, p) (st_pairs s) -> In (k2, q) (st_pairs s) -> pr_id p = pr_id q -> (k1, p) = (k2, q)) /\
  (forall k1 k2 p q, In (k1, p) (st_pools s) -> In (k2, q) (st_pools s) -> pl_id p = pl_id q -> (k1, p) = (k2, q)) /\
  (forall k1 k2 o p, In (k1, o) (st_orders s) -> In (k2, p) (st_orders s) -> ko_pair o = ko_pair p -> ko_id o = ko_id p -> (k1, o) = (k2, p)) /\
  (forall k1 k2 o p, In (k1, o) (st_deps s) -> In (k2, p) (st_deps s) -> dr_pool o = dr_pool p -> dr_id o = dr_id p -> (k1, o) = (k2, p)) /\
  (forall k1 k2 o p, In (k1, o) (st_wds s) -> In (k2, p) (st_wds s) -> wr_pool o = wr_pool p -> wr_id o = wr_id p -> (k1, o) = (k2, p)) /\
  (forall i p, get_pair s i = Some p -> pr_id p = i /\ 1 <= i <= st_last_pair s) /\
  (forall i p, get_pool s i = Some p -> pl_id p = i /\ 1 <= i <= st_last_pool s) /\
  (forall i j o, get_order s i j = Some o -> ko_pair o = i /\ ko_id o = j /\ exists pr, get_pair s i = Some pr /\ 1 <= j <= pr_last_order pr) /\
  (forall i j r, mget (st_deps s) (i, j) = Some r -> dr_pool r = i /\ dr_id r = j /\ exists p, get_pool s i = Some p /\ 1 <= j <= pl_last_dep p) /\
  (forall i j r, mget (st_wds s) (i, j) = Some r -> wr_pool r = i /\ wr_id r = j /\ exists p, get_pool s i = Some p /\ 1 <= j <= pl_last_wd p).
Proof.
  intros Q c R s. pose proof (reach_str Q c R) as S. fold s in S.
  assert (U : forall V (m : amap V) (key_of : V -> key), msorted m -> (forall k v, mget m k = Some v -> k = key_of v) ->
    forall k1 k2 v1 v2, In (k1, v1) m -> In (k2, v2) m -> key_of v1 = key_of v2 -> (k1, v1) = (k2, v2)).
  { intros V m kf Sm Hk k1 k2 v1 v2 H1 H2 E. apply (In_mget m _ _ (msorted_NoDup _ Sm)) in H1, H2. pose proof (Hk _ _ H1). pose proof (Hk _ _ H2). congruence. }
  repeat match goal with |- _ /\ _ => split end.
  - intros k1 k2 p q H1 H2 E. apply (U _ (st_pairs s) (fun p => (pr_id p, 0)) (i_pairs_sorted _ S)); auto; [intros k v H; apply (i_pairs _ S _ _ H)|congruence].
  - intros k1 k2 p q H1 H2 E. apply (U _ (st_pools s) (fun p => (pl_id p, 0)) (i_pools_sorted _ S)); auto; [intros k v H; apply (i_pools _ S _ _ H)|congruence].
  - intros k1 k2 p q H1 H2 E E2. apply (U _ (st_orders s) (fun p => (ko_pair p, ko_id p)) (i_orders_sorted _ S)); auto; [intros k v H; apply (i_orders _ S _ _ H)|congruence].
  - intros k1 k2 p q H1 H2 E E2. apply (U _ (st_deps s) (fun p => (dr_pool p, dr_id p)) (i_deps_sorted _ S)); auto; [intros k v H; apply (i_deps _ S _ _ H)|congruence].
  - intros k1 k2 p q H1 H2 E E2. apply (U _ (st_wds s) (fun p => (wr_pool p, wr_id p)) (i_wds_sorted _ S)); auto; [intros k v H; apply (i_wds _ S _ _ H)|congruence].
  - intros i p H. destruct (i_pairs _ S _ _ H) as (E & B & _). injection E as ->. auto.
  - intros i p H. destruct (i_pools _ S _ _ H) as (E & B & _). injection E as ->. auto.
  - intros i j o H. destruct (i_orders _ S _ _ H) as (E & pr & G & B & _). injection E as -> ->. repeat split; eauto.
  - intros i j o H. destruct (i_deps _ S _ _ H) as (E & (p & G & B & _) & _). injection E as -> ->. repeat split; eauto.
  - intros i j o H. destruct (i_wds _ S _ _ H) as (E & (p & G & B) & _). injection E as -> ->. repeat split; eauto.
Qed.
Print Assumptions C39_ids_unique.

(** Never reused: pairs and pools persist with their identity; whatever is found later under an id
    is the same object or the id is larger than every id issued before ([later] in KeeperSpec). *)
Theorem C39_ids_never_reused : forall Q c c', reach (sane Q) c -> runs (sane Q) c c' -> later (snd c) (snd c').
Proof. exact reach_later. Qed.
Print Assumptions C39_ids_never_reused.
(** In particular an order or request that is gone never comes back under its id. *)
Theorem C39_gone_forever : forall Q c c1 c2 i j, reach (sane Q) c -> runs (sane Q) c c1 -> runs (sane Q) c1 c2 ->
  (get_order (snd c) i j <> None -> get_order (snd c1) i j = None -> get_order (snd c2) i j = None) /\
  (mget (st_deps (snd c)) (i, j) <> None -> mget (st_deps (snd c1)) (i, j) = None -> mget (st_deps (snd c2)) (i, j) = None) /\
  (mget (st_wds (snd c)) (i, j) <> None -> mget (st_wds (snd c1)) (i, j) = None -> mget (st_wds (snd c2)) (i, j) = None).
Proof.
  intros Q c c1 c2 i j R H1 H2. pose proof (reach_runs _ _ _ R H1) as R1. pose proof (reach_later Q _ _ R H1) as L1. pose proof (reach_later Q _ _ R1 H2) as L2.
  destruct (C39_ids_unique Q c R) as (_ & _ & _ & _ & _ & _ & _ & U1 & U2 & U3). cbn zeta in U1, U2, U3.
  split; [|split]; intros G N.
  - destruct (get_order (snd c) i j) as [o|] eqn:E; [|congruence]. destruct (U1 i j o E) as (_ & _ & pr & Gp & B). destruct (l_pairs _ _ L1 i pr Gp) as (pr1 & Gp1 & (_ & _ & _ & Lo & _)).
    destruct (get_order (snd c2) i j) as [o2|] eqn:E2; [|reflexivity]. destruct (l_orders _ _ L2 i j o2 E2) as [(o1 & X & _)|(_ & X)]; [congruence|]. specialize (X pr1 Gp1). lia.
  - destruct (mget (st_deps (snd c)) (i, j)) as [o|] eqn:E; [|congruence]. destruct (U2 i j o E) as (_ & _ & pr & Gp & B). destruct (l_pools _ _ L1 i pr Gp) as (pr1 & Gp1 & (_ & _ & _ & _ & Lo & _)).
    destruct (mget (st_deps (snd c2)) (i, j)) as [o2|] eqn:E2; [|reflexivity]. destruct (l_deps _ _ L2 i j o2 E2) as [(o1 & X & _)|(_ & X)]; [congruence|]. specialize (X pr1 Gp1). lia.
  - destruct (mget (st_wds (snd c)) (i, j)) as [o|] eqn:E; [|congruence]. destruct (U3 i j o E) as (_ & _ & pr & Gp & B). destruct (l_pools _ _ L1 i pr Gp) as (pr1 & Gp1 & (_ & _ & _ & _ & _ & Lo & _)).
    destruct (mget (st_wds (snd c2)) (i, j)) as [o2|] eqn:E2; [|reflexivity]. destruct (l_wds _ _ L2 i j o2 E2) as [(o1 & X & _)|(_ & X)]; [congruence|]. specialize (X pr1 Gp1). lia.
Qed.
Print Assumptions C39_gone_forever.
(** Order 3 of the example exists, is gone later, and the counter moved on. *)
Example C39_example : reach (sane any_params) (after 1 trade2) /\ runs (sane any_params) (after 1 trade2) (after 1 trade5) /\
  is_some (get_order (snd (after 1 trade2)) 1 3) = true /\ is_some (get_order (snd (after 1 trade5)) 1 3) = false.
Proof.
  split; [apply after_reach; reflexivity|]. split; [|vm_compute; split; reflexivity].
  change trade5 with (trade2 ++ [AEnd; ABegin 20; AMsg (MCancelOrder 1 1 3); AEnd; ABegin 90]). apply after_app. vm_compute. reflexivity.
Qed.

(** ** C40: a trading pair is unique and the denomination index finds exactly it. *)
Theorem C40_pair_unique : forall Q c, reach (sane Q) c -> let s := snd c in
  (forall i j p q, get_pair s i = Some p -> get_pair s j = Some q -> pr_base p = pr_base q -> pr_quote p = pr_quote q -> i = j) /\
  (forall b q i, st_pidx s b q = Some i <-> exists p, get_pair s i = Some p /\ pr_base p = b /\ pr_quote p = q) /\
  (forall i p, get_pair s i = Some p -> pr_base p <> pr_quote p) /\
  (forall u i p, get_pair s i = Some p -> deliver s (MCreatePair u (pr_base p) (pr_quote p)) = None).
Proof.
  intros Q c R s. pose proof (reach_str Q c R) as S. fold s in S.
  assert (X : forall i p, get_pair s i = Some p -> pr_id p = i /\ st_pidx s (pr_base p) (pr_quote p) = Some i /\ pr_base p <> pr_quote p).
  { intros i p H. destruct (i_pairs _ S _ _ H) as (E & _ & N & _ & _ & _ & D). injection E as E. subst i. auto. }
  split; [|split; [|split]].
  - intros i j p q H1 H2 E1 E2. destruct (X _ _ H1) as (_ & A & _). destruct (X _ _ H2) as (_ & B & _). rewrite E1, E2 in A. congruence.
  - intros b q i. split; [apply (i_pidx _ S)|]. intros (p & G & <- & <-). apply (X _ _ G).
  - intros i p H. apply (X _ _ H).
  - intros u i p H. destruct (X _ _ H) as (_ & A & _). unfold deliver. destruct (validate_basic _); [|reflexivity]. cbn [handle]. unfold create_pair. rewrite A, H. reflexivity.
Qed.
Print Assumptions C40_pair_unique.
Example C40_example : reach (sane any_params) (after 1 trade1) /\ is_some (get_pair (snd (after 1 trade1)) 1) = true /\ st_pidx (snd (after 1 trade1)) (Coin 1) (Coin 2) = Some 1.
Proof. split; [apply after_reach; reflexivity|]. vm_compute. split; reflexivity. Qed.

(** ** C42: an order's status only moves forward and its fill only grows: same terms, remaining and
    open amount non increasing, received non decreasing, unchanged once completed, canceled or
    expired ([order_later] in KeeperSpec). *)
Theorem C42_status_forward : forall Q c c' i j o o', reach (sane Q) c -> runs (sane Q) c c' ->
  get_order (snd c) i j = Some o -> get_order (snd c') i j = Some o' -> order_later o o'.
Proof. intros Q c c' i j o o' R H G G'. destruct (l_orders _ _ (reach_later Q c c' R H) i j o' G') as [(o1 & X & L)|(X & _)]; congruence. Qed.
Print Assumptions C42_status_forward.
(** An order that is not finished never disappears: at every later point it is found under its id, unless it was finished first. *)
Theorem C42_live_orders_stay : forall Q c c' i j o, reach (sane Q) c -> step (sane Q) c c' ->
  get_order (snd c) i j = Some o -> live o = true -> get_order (snd c') i j <> None.
Proof.
  intros Q c c' i j o R H G L. pose proof (reach_okp Q c R) as I. destruct H; cbn [snd] in *.
  - destruct (begin_block_facts s t (v_str _ _ I)) as (_ & _ & A & _). unfold get_order. rewrite (proj2 (A (i, j) o)); [discriminate|auto].
  - assert (M : mics (mkCtl (sane Q) SMsg) s s') by (eapply deliver_mics; eauto). destruct (msg_keeps _ _ _ M (v_str _ _ I) eq_refl) as (_ & _ & A & _). destruct (A (i, j) o G) as (o' & X & _). unfold get_order. congruence.
  - destruct (batch_same_keys Q iter H s s' R H0) as (_ & _ & A). apply A. unfold get_order in G. congruence.
Qed.
Print Assumptions C42_live_orders_stay.
Example C42_example : let f c := option_map (fun o => (ko_status o, ko_remaining o, ko_open o)) (get_order (snd (after 1 c)) 1 4) in
  (f trade2, f trade3, f trade6) = (Some (ONotExecuted, 100000, 100000), Some (OPartiallyMatched, 30000, 30000), Some (OExpired, 30000, 30000)).
Proof. vm_compute. reflexivity. Qed.

(** ** C48: only an end blocker at a multiple of the batch size matches orders or executes requests. *)
Definition batch_step (c c' : config) : Prop :=
  exists iter, end_block iter (snd c) = Some (snd c') /\ st_height (snd c) mod pm_batch_size (st_params (snd c)) = 0 /\ fst c = InBlock /\ fst c' = Between.
Theorem C48_batch_heights : forall Q c c', reach (sane Q) c -> step (sane Q) c c' -> ~ batch_step c c' -> let s := snd c in let s' := snd c' in
  (forall i j o o', get_order s i j = Some o -> get_order s' i j = Some o' ->
     ko_open o' = ko_open o /\ ko_remaining o' = ko_remaining o /\ ko_received o' = ko_received o /\ (ko_status o' = ko_status o \/ live o = true /\ ko_status o' = OCanceled)) /\
  (forall k r r', mget (st_deps s) k = Some r -> mget (st_deps s') k = Some r' -> r' = r) /\
  (forall k r r', mget (st_wds s) k = Some r -> mget (st_wds s') k = Some r' -> r' = r) /\
  (forall i p, get_pair s i = Some p -> exists p', get_pair s' i = Some p' /\ pr_last_price p' = pr_last_price p /\ pr_batch p' = pr_batch p).
Proof.
  intros Q c c' R H N s s'. pose proof (reach_okp Q c R) as I. pose proof (v_str _ _ I) as S. subst s s'. destruct H; cbn [snd] in *.
  - destruct (begin_block_facts s t S) as (A1 & A2 & A3 & A4 & _). repeat match goal with |- _ /\ _ => split end.
    + intros i j o o' G G'. apply A3 in G'. destruct G' as [G' _]. unfold get_order in G. assert (o' = o) as -> by congruence. auto.
    + intros k r r' G G'. apply A1 in G'. destruct G' as [G' _]. congruence.
    + intros k r r' G G'. apply A2 in G'. destruct G' as [G' _]. congruence.
    + intros i p G. exists p. unfold get_pair. rewrite A4. auto.
  - assert (M : mics (mkCtl (sane Q) SMsg) s s') by (eapply deliver_mics; eauto). destruct (msg_keeps _ _ _ M S eq_refl) as (A1 & A2 & A3 & A4 & _).
    repeat match goal with |- _ /\ _ => split end; [| | |exact A4].
    + intros i j o o' G G'. destruct (A3 (i, j) o G) as (o2 & G2 & [->|(L & ->)]); unfold get_order in G'; rewrite G2 in G'; injection G' as <-; cbn [ko_open ko_remaining ko_received ko_status ko_with_status]; auto 8.
    + intros k r r' G G'. rewrite (A1 k r G) in G'. congruence.
    + intros k r r' G G'. rewrite (A2 k r G) in G'. congruence.
  - assert (s' = s) as ->.
    { unfold end_block in H0. destruct (Z.eqb_spec (st_height s mod pm_batch_size (st_params s)) 0) as [E|E]; [|congruence]. exfalso. apply N. exists iter. cbn [fst snd]. unfold end_block. rewrite (proj2 (Z.eqb_eq _ _) E). auto. }
    repeat match goal with |- _ /\ _ => split end; intros; first [repeat split; congruence|idtac]; [|exists p; auto]. assert (o' = o) as -> by congruence. auto.
Qed.
Print Assumptions C48_batch_heights.
(** With batch size 2 nothing happens in block 1, the orders match in block 2. *)
Example C48_example : let f c := option_map (fun o => (ko_status o, ko_remaining o)) (get_order (snd (after 2 c)) 1 2) in
  (f trade1, f (trade1 ++ [AEnd]), f (trade1 ++ [AEnd; ABegin 6]), f (trade1 ++ [AEnd; ABegin 6; AEnd])) =
  (Some (ONotExecuted, 70000), Some (ONotExecuted, 70000), Some (ONotExecuted, 70000), Some (OPartiallyMatched, 20000)).
Proof. vm_compute. reflexivity. Qed.
