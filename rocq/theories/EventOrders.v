(** Events (C84): what is reported about orders. *)
From Verif Require Import Base Dec DecProofs OrderModel MatchModel MatchSpec MatchProofs PoolModel KeeperModel KeeperLib KeeperSpec KeeperMicro KeeperSteps KeeperOrders KeeperReqs KeeperInv KeeperBank KeeperHist GenesisProofs KeeperTrade EventModel EventSpec EventProofs.

(** ** How an order and the events about it move together *)
Definition same_terms (o o' : korder) : Prop :=
  ko_pair o' = ko_pair o /\ ko_id o' = ko_id o /\ ko_dir o' = ko_dir o /\ ko_owner o' = ko_owner o /\ ko_amt o' = ko_amt o /\ ko_offer o' = ko_offer o /\ ko_offer_denom o' = ko_offer_denom o /\ ko_demand_denom o' = ko_demand_denom o.
Definition moved (o : korder) (l : list event) (o' : korder) : Prop :=
  same_terms o o' /\ (live o = false -> o' = o /\ l = []) /\
  total ev_matched l = ko_open o - ko_open o' /\ total ev_paid l = ko_remaining o - ko_remaining o' /\ total ev_received l = ko_received o' - ko_received o /\
  Forall (labelled o) l /\ (live o = true -> filter is_result l = if live o' then [] else [order_event o']).
Lemma total_app f a b : total f (a ++ b) = total f a + total f b.
Proof. unfold total. rewrite map_app. apply sumZ_app. Qed.
Lemma labelled_same o o' e : same_terms o o' -> labelled o' e -> labelled o e.
Proof. intros (A1 & A2 & A3 & A4 & A5 & A6 & A7 & A8). destruct e; cbn [labelled]; auto; intuition congruence. Qed.
Lemma moved_refl o : moved o [] o.
Proof. split; [repeat split|]. split; [auto|]. unfold total. cbn. split; [lia|]. split; [lia|]. split; [lia|]. split; [constructor|]. intros ->. reflexivity. Qed.
Lemma moved_trans a l1 b l2 c : moved a l1 b -> moved b l2 c -> moved a (l1 ++ l2) c.
Proof.
  intros (A1 & A2 & A3 & A4 & A5 & A6 & A7) (B1 & B2 & B3 & B4 & B5 & B6 & B7). split; [unfold same_terms in *; intuition congruence|].
  split. { intros L. destruct (A2 L) as [-> ->]. destruct (B2 L) as [-> ->]. auto. }
  rewrite !total_app. split; [lia|]. split; [lia|]. split; [lia|]. split; [apply Forall_app; split; [exact A6|eapply Forall_impl; [|exact B6]; intros e; apply labelled_same; exact A1]|].
  intros L. rewrite filter_app, (A7 L). destruct (live b) eqn:Lb; [exact (B7 eq_refl)|]. destruct (B2 eq_refl) as [-> ->]. rewrite Lb. reflexivity.
Qed.

(** Between two states: what happened to every order, and what was reported. *)
Definition tells (s : state) (ev : list event) (s' : state) : Prop := forall i j,
  match get_order s i j with
  | None => get_order s' i j = None /\ filter (on_order i j) ev = []
  | Some o => exists o', get_order s' i j = Some o' /\ moved o (filter (on_order i j) ev) o'
  end.
Lemma tells_same s s' : st_orders s' = st_orders s -> tells s [] s'.
Proof. intros E i j. unfold get_order. rewrite E. destruct (mget (st_orders s) (i, j)) as [o|]; [exists o; split; [reflexivity|apply moved_refl]|auto]. Qed.
Lemma tells_quiet s ev ev' s' : (forall i j, filter (on_order i j) ev' = filter (on_order i j) ev) -> tells s ev s' -> tells s ev' s'.
Proof. intros H T i j. rewrite H. apply T. Qed.
Lemma tells_orders s ev s1 s2 : st_orders s2 = st_orders s1 -> tells s ev s1 -> tells s ev s2.
Proof. intros H T i j. specialize (T i j). unfold get_order in *. rewrite H. exact T. Qed.
Lemma tells_trans a l1 b l2 c : tells a l1 b -> tells b l2 c -> tells a (l1 ++ l2) c.
Proof.
  intros A B i j. specialize (A i j). specialize (B i j). rewrite filter_app. destruct (get_order a i j) as [o|].
  - destruct A as (o1 & G1 & M1). rewrite G1 in B. destruct B as (o2 & G2 & M2). exists o2. split; [exact G2|exact (moved_trans _ _ _ _ _ M1 M2)].
  - destruct A as [G1 E1]. rewrite G1 in B. destruct B as [G2 E2]. split; [exact G2|]. rewrite E1, E2. reflexivity.
Qed.
(** One order is rewritten. *)
Lemma tells_one s s' o o' ev : get_order s (ko_pair o) (ko_id o) = Some o -> st_orders s' = mset (st_orders s) (ko_pair o, ko_id o) o' ->
  (forall i j, filter (on_order i j) ev = if (ko_pair o =? i) && (ko_id o =? j) then ev else []) -> moved o ev o' -> tells s ev s'.
Proof.
  intros G E F M i j. rewrite F. unfold get_order in *. rewrite E, mget_mset. destruct (key_eqb_spec (i, j) (ko_pair o, ko_id o)) as [X|X].
  - injection X as -> ->. rewrite G, !Z.eqb_refl. exists o'. auto.
  - assert (Y : (ko_pair o =? i) && (ko_id o =? j) = false) by (apply andb_false_iff; destruct (Z.eqb_spec (ko_pair o) i), (Z.eqb_spec (ko_id o) j); auto; exfalso; apply X; congruence).
    rewrite Y. destruct (mget (st_orders s) (i, j)) as [x|]; [exists x; split; [reflexivity|apply moved_refl]|auto].
Qed.

Lemma status_live o st : live (ko_with_status o st) = negb (o_terminal st).
Proof. reflexivity. Qed.
Lemma finish_order_e_spec s o st s' ev : live o = true -> finish_order_e s o st = Some (s', ev) ->
  st_orders s' = mset (st_orders s) (ko_pair o, ko_id o) (ko_with_status o st) /\ ev = [order_event (ko_with_status o st)] /\ same_rest s s'.
Proof.
  intros L H. unfold finish_order_e in H. destruct (finish_order s o st) as [x|] eqn:E; [|discriminate H]. unfold live in L. apply negb_true_iff in L. rewrite L in H. injection H as <- <-.
  assert (L' : live o = true) by (unfold live; rewrite L; reflexivity). split; [|split; [reflexivity|exact (finish_order_rest _ _ _ _ E L')]].
  destruct (finish_order_spec _ _ _ _ E L') as (b & _ & ->). destruct (ko_type o); reflexivity.
Qed.
Lemma finish_order_e_dead s o st s' ev : live o = false -> finish_order_e s o st = Some (s', ev) -> s' = s /\ ev = [].
Proof. unfold live, finish_order_e, finish_order. intros L. apply negb_false_iff in L. rewrite L. intros H. injection H as <- <-. auto. Qed.
Lemma end_moved o st : live o = true -> o_terminal st = true -> moved o [order_event (ko_with_status o st)] (ko_with_status o st).
Proof.
  intros L T. split; [repeat split|]. split; [congruence|]. unfold total. cbn. split; [lia|]. split; [lia|]. split; [lia|].
  split; [constructor; [repeat split|constructor]|]. intros _. rewrite status_live, T. reflexivity.
Qed.
Lemma quiet_moved o st : live o = true -> o_terminal st = false -> moved o [] (ko_with_status o st).
Proof.
  intros L T. split; [repeat split|]. split; [congruence|]. unfold total. cbn. split; [lia|]. split; [lia|]. split; [lia|]. split; [constructor|]. intros _. rewrite status_live, T. reflexivity.
Qed.
Lemma order_event_on o st i j : filter (on_order i j) [order_event (ko_with_status o st)] = if (ko_pair o =? i) && (ko_id o =? j) then [order_event (ko_with_status o st)] else [].
Proof. reflexivity. Qed.
(** An order, or no longer live one, is finished. *)
Lemma finish_tells s o st s' ev : get_order s (ko_pair o) (ko_id o) = Some o -> o_terminal st = true -> finish_order_e s o st = Some (s', ev) -> tells s ev s'.
Proof.
  intros G T H. destruct (live o) eqn:L.
  - destruct (finish_order_e_spec _ _ _ _ _ L H) as (E & -> & _). exact (tells_one _ _ _ _ _ G E (order_event_on o st) (end_moved o st L T)).
  - destruct (finish_order_e_dead _ _ _ _ _ L H) as [-> ->]. apply tells_same. reflexivity.
Qed.

(** No event about requests. *)
Definition no_req (e : event) : Prop := match e with DepositResult _ _ _ _ _ _ _ _ => False | WithdrawalResult _ _ _ _ _ _ _ _ => False | _ => True end.
Lemma finish_no_req s o st s' ev : finish_order_e s o st = Some (s', ev) -> Forall no_req ev.
Proof. unfold finish_order_e. destruct (finish_order s o st); [|discriminate]. intros H. injection H as _ <-. destruct (o_terminal _); repeat constructor. Qed.

(** ** Collecting the orders of a pair *)
Lemma collect_tells l : forall s h s1 h1 ev, NoDup (map fst l) -> (forall k o, In (k, o) l -> mget (st_orders s) k = Some o /\ k = (ko_pair o, ko_id o)) ->
  collect_orders_e l s h = Some (s1, h1, ev) -> tells s ev s1 /\ Forall no_req ev.
Proof.
  induction l as [|[k o] l IH]; intros s h s1 h1 ev N C H; cbn [collect_orders_e] in H; [injection H as <- _ <-; split; [apply tells_same; reflexivity|constructor]|].
  inversion N as [|? ? N1 N2]; subst. destruct (C k o (or_introl eq_refl)) as [G Ek].
  assert (Go : get_order s (ko_pair o) (ko_id o) = Some o) by (unfold get_order; rewrite <- Ek; exact G).
  assert (Cr : forall s2 o2, st_orders s2 = mset (st_orders s) k o2 -> forall k' o', In (k', o') l -> mget (st_orders s2) k' = Some o' /\ k' = (ko_pair o', ko_id o')).
  { intros s2 o2 E2 k' o' X. destruct (C k' o' (or_intror X)) as [G' E']. split; [|exact E']. rewrite E2, mget_mset_neq; [exact G'|]. intros ->. apply N1. change k with (fst (k, o')). apply in_map. exact X. }
  destruct (o_terminal (ko_status o)) eqn:T; [exact (IH _ _ _ _ _ N2 (fun k' o' X => C k' o' (or_intror X)) H)|].
  assert (L : live o = true) by (unfold live; rewrite T; reflexivity).
  destruct (match ko_status o with ONotExecuted => false | _ => expired_at o (st_time s) end).
  - destruct (finish_order_e s o OExpired) as [[s2 e2]|] eqn:E; [|discriminate H]. cbn [fst snd] in H. destruct (collect_orders_e l s2 h) as [[[s3 h3] e3]|] eqn:E3; [|discriminate H]. injection H as <- _ <-.
    destruct (finish_order_e_spec _ _ _ _ _ L E) as (E2 & _ & _). rewrite <- Ek in E2. destruct (IH _ _ _ _ _ N2 (Cr _ _ E2) E3) as [T3 R3].
    split; [exact (tells_trans _ _ _ _ _ (finish_tells s o OExpired s2 e2 Go eq_refl E) T3)|]. apply Forall_app. split; [exact (finish_no_req _ _ _ _ _ E)|exact R3].
  - destruct (of_res (user_order o)) as [uo|]; [|discriminate H]. destruct (ko_status o) eqn:Es; try (exact (IH _ _ _ _ _ N2 (fun k' o' X => C k' o' (or_intror X)) H)).
    assert (E2 : st_orders (put_order s (ko_with_status o ONotMatched)) = mset (st_orders s) (ko_pair o, ko_id o) (ko_with_status o ONotMatched)) by reflexivity.
    rewrite <- Ek in E2. destruct (IH _ _ _ _ _ N2 (Cr _ _ E2) H) as [T3 R3]. split; [|exact R3]. change ev with ([] ++ ev). refine (tells_trans _ _ _ _ _ _ T3).
    refine (tells_one s _ o (ko_with_status o ONotMatched) [] Go _ _ (quiet_moved o ONotMatched L eq_refl)); [rewrite E2, Ek; reflexivity|]. intros i j. destruct (_ && _); reflexivity.
Qed.

(** ** Applying a match *)
Lemma fill_moved ko m pd rc : live ko = true ->
  let ko' := ko_with_fill ko (ko_remaining ko - pd) (ko_received ko + rc) (ko_open ko - m) in
  let e := UserOrderMatched (ko_dir ko) (ko_owner ko) (ko_pair ko) (ko_id ko) m (ko_offer_denom ko) pd (ko_demand_denom ko) rc in
  moved ko [e] (ko_with_status ko' OPartiallyMatched) /\ moved ko [order_event (ko_with_status ko' OCompleted); e] (ko_with_status ko' OCompleted).
Proof.
  intros L ko' e. split; (split; [repeat split|]); (split; [congruence|]); unfold total; cbn; (split; [lia|]); (split; [lia|]); (split; [lia|]); (split; [repeat (constructor; [repeat split|]); constructor|]); intros _; reflexivity.
Qed.
Lemma apply_orders_tells pr os : forall s q seen acc s' q' ev acc', (forall i j o, get_order s i j = Some o -> ko_pair o = i /\ ko_id o = j) ->
  Forall (filled_entry s (pr_id pr)) os -> NoDup (user_ids os) -> apply_orders_e pr os s q seen acc = Some (s', q', ev, acc') -> tells s ev s' /\ Forall no_req ev.
Proof.
  induction os as [|o os IH]; intros s q seen acc s' q' ev acc' Ky F NU H; cbn [apply_orders_e] in H; [injection H as <- _ <- _; split; [apply tells_same; reflexivity|constructor]|].
  inversion F as [|? ? F1 F2]; subst. unfold user_ids in NU. cbn [flat_map] in NU. fold (user_ids os) in NU.
  assert (NU' : NoDup (user_ids os)) by (unfold uid in NU; destruct (o_kind o); [exact NU|inversion NU; assumption|exact NU]).
  destruct (is_matched o) eqn:Mt; [|exact (IH _ _ _ _ _ _ _ _ Ky F2 NU' H)].
  destruct (F1 Mt) as (_ & _ & F1'). destruct (o_kind o) as [|id|id] eqn:K; [discriminate H| |].
  - destruct F1' as (ko & G & L & _). rewrite G in H. destruct (ko_remaining ko <? o_paid o); [discriminate H|]. cbn zeta in H. set (ko' := ko_with_fill _ _ _ _) in H.
    destruct (Ky _ _ _ G) as [Ei Eid].
    match type of H with (match ?e with Some x => _ | None => None end) = _ => destruct e as [[s1 e1]|] eqn:Es; [|discriminate H] end. cbn [fst snd] in H.
    destruct (new_coins _) as [cs|]; [|discriminate H]. destruct (apply_orders_e pr os s1 _ seen acc) as [[[[s2 q2] ev2] acc2]|] eqn:E2; [|discriminate H]. injection H as <- _ <- _.
    assert (Go : get_order s (ko_pair ko) (ko_id ko) = Some ko) by (rewrite Ei, Eid; exact G).
    destruct (fill_moved ko (o_amt o - o_open o) (o_paid o) (o_recv o) L) as [M1 M2]. cbn zeta in M1, M2. fold ko' in M1, M2. rewrite Ei, Eid in M1, M2.
    set (me := UserOrderMatched (ko_dir ko) (ko_owner ko) (pr_id pr) id (o_amt o - o_open o) (ko_offer_denom ko) (o_paid o) (ko_demand_denom ko) (o_recv o)) in *.
    assert (X : exists o1, st_orders s1 = mset (st_orders s) (ko_pair ko, ko_id ko) o1 /\ moved ko (e1 ++ [me]) o1 /\ (forall i j, filter (on_order i j) (e1 ++ [me]) = if (ko_pair ko =? i) && (ko_id ko =? j) then e1 ++ [me] else []) /\ Forall no_req e1).
    { destruct (ko_open ko' =? 0).
      - assert (L' : live ko' = true) by exact L. destruct (finish_order_e_spec _ _ _ _ _ L' Es) as (A & -> & _). exists (ko_with_status ko' OCompleted). split; [exact A|]. split; [exact M2|]. split; [|repeat constructor].
        intros i j. cbn -[Z.eqb]. rewrite Ei, Eid. destruct ((pr_id pr =? i) && (id =? j)); reflexivity.
      - injection Es as <- <-. exists (ko_with_status ko' OPartiallyMatched). split; [reflexivity|]. split; [exact M1|]. split; [|constructor]. intros i j. cbn -[Z.eqb]. rewrite Ei, Eid. destruct ((pr_id pr =? i) && (id =? j)); reflexivity. }
    destruct X as (o1 & A & M & Fi & R1). pose proof (tells_one s s1 ko o1 (e1 ++ [me]) Go A Fi M) as T1.
    assert (Ky1 : forall i j x, get_order s1 i j = Some x -> ko_pair x = i /\ ko_id x = j).
    { intros i j x Gx. specialize (T1 i j). destruct (get_order s i j) as [y|] eqn:Gy; [|destruct T1; congruence]. destruct T1 as (y' & Gy' & (B1 & _)). rewrite Gx in Gy'. injection Gy' as <-.
      destruct (Ky _ _ _ Gy) as [P1 P2]. destruct B1 as (Q1 & Q2 & _). split; congruence. }
    unfold uid in NU. rewrite K in NU. cbn [app] in NU. apply NoDup_cons_iff in NU. destruct NU as [NU1 _].
    assert (Fe : Forall (filled_entry s1 (pr_id pr)) os).
    { apply Forall_forall. intros x Hx Mx. destruct (proj1 (Forall_forall _ _) F2 x Hx Mx) as (X1 & X2 & X3). split; [exact X1|]. split; [exact X2|]. destruct (o_kind x) as [|id'|] eqn:Kx; auto.
      destruct X3 as (kx & Y1 & Y2). exists kx. split; [|exact Y2]. unfold get_order in *. rewrite A, mget_mset_neq; [exact Y1|]. rewrite Ei, Eid. intros E0. injection E0 as E0. apply NU1. rewrite <- E0. unfold user_ids. apply in_flat_map. exists x. split; [exact Hx|].
      unfold uid. rewrite Kx. left. reflexivity. }
    destruct (IH _ _ _ _ _ _ _ _ Ky1 Fe NU' E2) as [T2 R2]. replace (e1 ++ me :: ev2) with ((e1 ++ [me]) ++ ev2) by (rewrite <- app_assoc; reflexivity).
    split; [exact (tells_trans _ _ _ _ _ T1 T2)|]. rewrite <- app_assoc. apply Forall_app. split; [exact R1|]. constructor; [exact Logic.I|exact R2].
  - destruct (new_coins _) as [cs|]; [|discriminate H]. cbn zeta in H. destruct (existsb _ seen); [discriminate H|]. exact (IH _ _ _ _ _ _ _ _ Ky F2 NU' H).
Qed.
Lemma pool_events_quiet i0 acc : (forall i j, filter (on_order i j) (map (pool_event i0) acc) = []) /\ Forall no_req (map (pool_event i0) acc).
Proof. induction acc as [|r acc [IH1 IH2]]; [split; [reflexivity|constructor]|]. split; [intros i j; cbn; apply IH1|cbn; constructor; [exact Logic.I|exact IH2]]. Qed.
Lemma apply_match_tells pr os s qd s' ev : (forall i j o, get_order s i j = Some o -> ko_pair o = i /\ ko_id o = j) -> Forall (filled_entry s (pr_id pr)) os -> NoDup (user_ids os) ->
  apply_match_e s pr os qd = Some (s', ev) -> tells s ev s' /\ Forall no_req ev.
Proof.
  intros Ky F NU H. unfold apply_match_e in H. destruct (queue_pool_payments pr os []); [|discriminate H]. destruct (bulk_run _ _) as [b1|]; [|discriminate H].
  destruct (apply_orders_e pr os _ [] [] []) as [[[[s1 q] ev1] acc]|] eqn:E; [|discriminate H]. destruct (new_coins _); [|discriminate H]. destruct (bulk_run (st_bank s1) _) as [b2|]; [|discriminate H]. injection H as <- <-.
  destruct (apply_orders_tells pr os (set_bank s b1) _ _ _ _ _ _ _ Ky F NU E) as [T R]. destruct (pool_events_quiet (pr_id pr) acc) as [P1 P2].
  split; [|apply Forall_app; split; assumption]. refine (tells_quiet _ ev1 _ _ _ _); [intros i j; rewrite filter_app, P1, app_nil_r; reflexivity|].
  intros i j. exact (T i j).
Qed.

Lemma inv_keyed (Q : ctl) s : inv Q s -> forall i j o, get_order s i j = Some o -> ko_pair o = i /\ ko_id o = j.
Proof. intros I i j o G. exact (get_order_id _ _ _ _ (v_str _ _ I) G). Qed.

Lemma collect_pools_orders pr l : forall s s2 ps, collect_pools l pr s = Some (s2, ps) -> st_orders s2 = st_orders s.
Proof.
  induction l as [|[k u] l IH]; intros s s2 ps H; cbn [collect_pools] in H; [injection H as <- _; reflexivity|].
  destruct (get_pool s (snd k)) as [p|]; [|discriminate H]. destruct (pl_disabled p); [exact (IH _ _ _ H)|]. destruct (of_res _) as [ap|]; [|discriminate H].
  destruct (is_depleted ap); [exact (IH _ _ _ H)|]. destruct (collect_pools l pr s) as [[s3 q]|] eqn:E; [|discriminate H]. injection H as <- _. exact (IH _ _ _ E).
Qed.
Lemma matching_tells (Q : ctl) iter pr s s' ev : is_perm_iter iter -> inv Q s -> (forall p, Q p -> sane_ratio p) -> stage_of Q = STrade -> get_pair s (pr_id pr) = Some pr ->
  execute_matching_e iter pr s = Some (s', ev) -> tells s ev s' /\ Forall no_req ev.
Proof.
  intros Hi I HQ T Gp H. pose proof (f_equal only H) as H0. rewrite execute_matching_erase in H0. cbn [only] in H0.
  destruct (execute_matching_full Q iter pr s s' Hi I HQ T Gp H0) as (ss & price & hu & ps & MB & MS & M & _ & _ & _ & _ & _ & _ & _ & R).
  destruct (mb_collect _ _ _ _ _ MB) as (s1 & C1 & C2). unfold execute_matching_e in H.
  destruct (collect_orders_e _ s []) as [[[s1' h] ev1]|] eqn:E1; [|discriminate H]. pose proof (f_equal only2 E1) as E1'. rewrite collect_orders_erase, C1 in E1'. cbn [only2] in E1'. injection E1' as <- <-.
  rewrite C2 in H. cbn [fst snd] in H.
  assert (So : msorted (st_orders s)) by exact (i_orders_sorted _ (v_str _ _ I)).
  destruct (collect_tells (mprefix (st_orders s) (pr_id pr)) s [] s1 hu ev1) with (3 := E1) as [T1 R1].
  { apply msorted_NoDup, msorted_filter, So. }
  { intros k o X. apply mprefix_In in X. destruct X as [X _]. pose proof (snap_current _ _ _ So X) as G. split; [exact G|]. destruct k as [i j]. destruct (inv_keyed Q s I i j o G) as [-> ->]. reflexivity. }
  assert (T2 : tells s ev1 ss) by exact (tells_orders _ _ s1 _ (collect_pools_orders _ _ _ _ _ C2) T1).
  destruct (kmatch _ _ _ _ _) as [[hh mr]|] eqn:Ek; [|discriminate H]. cbn [fst snd] in H. destruct mr as [[[h2 mp] qd]|].
  2:{ injection H as <- <-. split; [refine (tells_orders _ _ ss _ _ T2); reflexivity|exact R1]. }
  destruct (apply_match_e ss pr _ qd) as [[s3 e3]|] eqn:Ea; [|discriminate H]. injection H as <- <-. cbn [fst snd].
  assert (App : Forall (filled_entry ss (pr_id pr)) (map (get h2) (book_orders (new_order_book hh))) /\ NoDup (user_ids (map (get h2) (book_orders (new_order_book hh))))).
  { destruct R as [(_ & (h1 & K) & _)|(po & h & h2' & mp' & qd' & K & _ & _ & _ & MD)]; [discriminate K|].
    injection K as -> -> _ _. destruct (md_applied _ _ _ _ _ _ _ _ _ MD) as (A1 & A2 & _). exact (conj A1 A2). }
  destruct App as [A1 A2]. pose proof (inv_mics _ _ _ (MS STrade (or_introl eq_refl)) (proj1 (inv_ctl Q STrade s) I)) as Iss.
  destruct (apply_match_tells pr _ ss qd s3 e3 (inv_keyed _ _ Iss) A1 A2 Ea) as [T3 R3].
  split; [|apply Forall_app; split; assumption]. refine (tells_orders _ _ s3 _ eq_refl _). exact (tells_trans _ _ _ _ _ T2 T3).
Qed.
