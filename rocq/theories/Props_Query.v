(** C66-C69: the gRPC queries.  [reach (sane Q)]: see Props_Keeper.v.  [lists], [walk], [qreach] and
    [trades] are defined in QuerySpec. *)
From Verif Require Import Base Dec OrderModel MatchModel PoolModel KeeperModel KeeperLib KeeperSpec KeeperMicro KeeperBank KeeperTrade KeeperHist KeeperExample KeeperRich PoolViewProofs QueryModel QuerySpec QueryProofs QueryState QueryLists Props_Keeper2 GenesisModel QueryGenesis.
From Coq Require Import Sorting.Sorted.

(** ** C66: pagination.  Over any store, filter and response: following the next keys ends and gives
    every matching entry once, in key order; asking by offset gives the slice.  And the pages of a
    given size are determined. *)
Theorem C66_pagination : forall (V A : Type) (hit : key * V -> bool) (resp : key * V -> A) (m : amap V), msorted m ->
  lists (paginate hit (fun e => Some (resp e)) m) (map resp (filter hit m)).
Proof. intros V A hit resp m S. apply paginate_lists; [exact S|apply all_total]. Qed.
Print Assumptions C66_pagination.
Theorem C66_pages_determined : forall (A : Type) (q : page_req -> option (list A * page_res)) limit count pages1 pages2,
  walk q limit count None pages1 -> walk q limit count None pages2 -> pages1 = pages2.
Proof. intros A q limit count p1 p2 W1 W2. exact (walk_det q limit count None p1 W1 p2 W2). Qed.
Print Assumptions C66_pages_determined.
(** Asking for a key and an offset together is refused. *)
Theorem C66_key_and_offset : forall (V A : Type) (hit : key * V -> bool) (resp : key * V -> option A) (m : amap V) k offset limit count,
  0 < offset -> paginate hit resp m (mkPage (Some k) offset limit count) = None.
Proof. intros. unfold paginate. cbn [pg_offset pg_key is_some]. destruct (Z.ltb_spec 0 offset); [reflexivity|lia]. Qed.
Print Assumptions C66_key_and_offset.
(** Five entries of which four match, two at a time: two pages; and the second and third by offset. *)
Definition five : amap Z := [((1, 1), 10); ((1, 2), 20); ((2, 1), 25); ((2, 2), 30); ((3, 1), 40)].
Definition tens (e : key * Z) : bool := snd e mod 10 =? 0.
Example C66_example : msorted five /\
  paginate tens value five (mkPage None 0 2 true) = Some ([10; 20], mkRes (Some (2, 2)) 4) /\
  paginate tens value five (mkPage (Some (2, 2)) 0 2 true) = Some ([30; 40], mkRes None 0) /\
  paginate tens value five (mkPage None 1 2 true) = Some ([20; 30], mkRes (Some (3, 1)) 4).
Proof. split; [|repeat split; reflexivity]. repeat (constructor; [|repeat (constructor; [reflexivity|]); constructor]). constructor. Qed.

(** ** C67: in every reachable state, the listings of orders and requests give exactly the stored ones
    of the pair, pool or owner asked for, once each, in the order of their ids. *)
Theorem C67_orders : forall Q c i, reach (sane Q) c -> i <> 0 -> exists all, lists (q_orders (snd c) i) all /\
  StronglySorted (fun a b => ko_id a < ko_id b) all /\ forall o, In o all <-> q_order (snd c) i (ko_id o) = Some o.
Proof.
  intros Q c i R Ni. pose proof (v_str _ _ (reach_okp Q c R)) as S. destruct (orders_listed (snd c) i S Ni) as (all & L & So & M). exists all. split; [exact L|]. split; [exact So|].
  intros o. rewrite M. unfold q_order. destruct (Z.eqb_spec i 0); [contradiction|]. destruct (Z.eqb_spec (ko_id o) 0) as [E|]; [|reflexivity]. cbn [orb]. split; [|intros X; discriminate X].
  intros G. unfold get_order in G. destruct (i_orders _ S _ _ G) as (_ & pr & _ & (H & _)). lia.
Qed.
Print Assumptions C67_orders.
Theorem C67_deposits : forall Q c i, reach (sane Q) c -> i <> 0 -> exists all, lists (q_deposits (snd c) i) all /\
  StronglySorted (fun a b => dr_id a < dr_id b) all /\ forall r, In r all <-> q_deposit (snd c) i (dr_id r) = Some r.
Proof.
  intros Q c i R Ni. pose proof (v_str _ _ (reach_okp Q c R)) as S. destruct (deposits_listed (snd c) i S Ni) as (all & L & So & M). exists all. split; [exact L|]. split; [exact So|].
  intros r. rewrite M. unfold q_deposit. destruct (Z.eqb_spec i 0); [contradiction|]. destruct (Z.eqb_spec (dr_id r) 0) as [E|]; [|reflexivity]. cbn [orb]. split; [|intros X; discriminate X].
  intros G. destruct (i_deps _ S _ _ G) as (_ & (p & _ & H & _) & _). lia.
Qed.
Print Assumptions C67_deposits.
Theorem C67_withdrawals : forall Q c i, reach (sane Q) c -> i <> 0 -> exists all, lists (q_withdrawals (snd c) i) all /\
  StronglySorted (fun a b => wr_id a < wr_id b) all /\ forall r, In r all <-> q_withdrawal (snd c) i (wr_id r) = Some r.
Proof.
  intros Q c i R Ni. pose proof (v_str _ _ (reach_okp Q c R)) as S. destruct (withdrawals_listed (snd c) i S Ni) as (all & L & So & M). exists all. split; [exact L|]. split; [exact So|].
  intros r. rewrite M. unfold q_withdrawal. destruct (Z.eqb_spec i 0); [contradiction|]. destruct (Z.eqb_spec (wr_id r) 0) as [E|]; [|reflexivity]. cbn [orb]. split; [|intros X; discriminate X].
  intros G. destruct (i_wds _ S _ _ G) as (_ & (p & _ & H) & _). lia.
Qed.
Print Assumptions C67_withdrawals.
(** By owner, in all pairs (0) or in one: every entry names a stored order, and the list is complete. *)
Theorem C67_orders_by_owner : forall Q c a i, reach (sane Q) c -> exists all, lists (q_orders_by (snd c) a i) (map Some all) /\
  StronglySorted (fun o p => ko_pair o < ko_pair p \/ (ko_pair o = ko_pair p /\ ko_id o < ko_id p)) all /\
  forall o, In o all <-> q_order (snd c) (ko_pair o) (ko_id o) = Some o /\ ko_owner o = a /\ (i = 0 \/ ko_pair o = i).
Proof.
  intros Q c a i R. pose proof (v_str _ _ (reach_okp Q c R)) as S. destruct (orders_by_listed (snd c) a i S) as (all & L & So & M). exists all. split; [exact L|]. split; [exact So|].
  intros o. rewrite M. unfold q_order. destruct ((ko_pair o =? 0) || (ko_id o =? 0)) eqn:Z0; [|reflexivity]. split; [|intros (X & _); discriminate X].
  intros (G & _). exfalso. unfold get_order in G. destruct (i_orders _ S _ _ G) as (_ & pr & Gp & (H & _)). destruct (i_pairs _ S _ _ Gp) as (Ek & Hp & _). injection Ek as Ek. apply orb_true_iff in Z0. rewrite !Z.eqb_eq in Z0. lia.
Qed.
Print Assumptions C67_orders_by_owner.
Definition ids (r : option (list korder * page_res)) : list Z := match r with Some (l, _) => map ko_id l | None => [] end.
Definition next (r : option (list korder * page_res)) : option key := match r with Some (_, p) => rs_next p | None => None end.
Example C67_example : reach (sane any_params) (after 1 trade2) /\
  (let s := snd (after 1 trade2) in ids (q_orders s 1 (mkPage None 0 2 false)) = [2; 3] /\ next (q_orders s 1 (mkPage None 0 2 false)) = Some (1, 4) /\ ids (q_orders s 1 (mkPage (Some (1, 4)) 0 2 false)) = [4; 5]).
Proof. split; [apply after_reach; reflexivity|]. vm_compute. repeat split; reflexivity. Qed.

(** ** C68: pairs and pools.  A pool is shown with the balances of its reserve account, the supply of
    its pool coin and, unless disabled, a price. *)
Theorem C68_pool_view : forall Q c i v, reach (sane Q) c -> q_pool (snd c) i = Some v -> exists p pr, get_pool (snd c) i = Some p /\ get_pair (snd c) (pl_pair p) = Some pr /\
  pv_pool v = p /\ pv_quote v = (pr_quote pr, bal (st_bank (snd c)) (PoolReserve i) (pr_quote pr)) /\ pv_base v = (pr_base pr, bal (st_bank (snd c)) (PoolReserve i) (pr_base pr)) /\
  pv_supply v = supply (st_bank (snd c)) (PoolCoin i) /\ (pv_price v = None <-> pl_disabled p = true) /\
  (forall price, pl_kind p = PBasic -> pv_price v = Some price -> snd (pv_quote v) < 2 ^ 196 ->
     2 * (price * snd (pv_base v)) <= 2 * (snd (pv_quote v) * P18) + snd (pv_base v) /\ snd (pv_quote v) * P18 <= (price + 1) * snd (pv_base v)).
Proof.
  intros Q c i v R H. pose proof (reach_okp Q c R) as K. pose proof (v_str _ _ K) as S. unfold q_pool in H. destruct (i =? 0); [discriminate H|]. destruct (get_pool (snd c) i) as [p|] eqn:G; [|discriminate H].
  destruct (i_pools _ S _ _ G) as (Ek & _). injection Ek as Ek. unfold pool_response in H. destruct (get_pair (snd c) (pl_pair p)) as [pr|] eqn:Gp; [|discriminate H]. cbn zeta in H. exists p, pr. split; [reflexivity|]. split; [exact Gp|].
  pose proof (fun a d => proj1 (v_bank _ _ K) a d) as NN. unfold pool_rx, pool_ry, pool_ps in H. rewrite <- Ek in H.
  destruct (pl_disabled p) eqn:D.
  - injection H as <-. cbn. do 4 (split; [reflexivity|]). split; [split; [reflexivity|reflexivity]|]. intros price _ X. discriminate X.
  - destruct (of_res (amm_pool _ _ _ _)) as [ap|] eqn:Ap; [|discriminate H]. destruct (of_res (pool_price ap)) as [price|] eqn:Pp; [|discriminate H]. injection H as <-. cbn [pv_pool pv_quote pv_base pv_supply pv_price fst snd].
    do 4 (split; [reflexivity|]). split; [split; intros X; discriminate X|]. intros price' Kd X Lt. injection X as <-. unfold amm_pool in Ap. rewrite Kd in Ap. cbn [of_res] in Ap. injection Ap as <-.
    set (rx := bal _ _ (pr_quote pr)) in *. set (ry := bal _ _ (pr_base pr)) in *. assert (Zr : rx <> 0 /\ ry <> 0).
    { cbn [pool_price] in Pp. destruct (Z.eqb_spec rx 0); [discriminate Pp|]. destruct (Z.eqb_spec ry 0); [discriminate Pp|]. split; assumption. }
    assert (N1 : 0 <= rx) by apply NN. assert (N2 : 0 <= ry) by apply NN.
    destruct (basic_price rx ry 0 ltac:(lia) ltac:(lia)) as (pp & Ep & _ & B1 & B2). rewrite Ep in Pp. cbn [of_res] in Pp. injection Pp as ->. split; assumption.
Qed.
Print Assumptions C68_pool_view.
(** Disabled pools, and basic pools with both coins, can always be shown. *)
Theorem C68_pool_answers_partial : forall Q c i p, reach (sane Q) c -> get_pool (snd c) i = Some p ->
  pl_disabled p = true \/ (pl_kind p = PBasic /\ forall pr, get_pair (snd c) (pl_pair p) = Some pr -> 0 < bal (st_bank (snd c)) (PoolReserve i) (pr_quote pr) < 2 ^ 196 /\ 0 < bal (st_bank (snd c)) (PoolReserve i) (pr_base pr)) ->
  is_some (q_pool (snd c) i) = true.
Proof.
  intros Q c i p R G H. pose proof (v_str _ _ (reach_okp Q c R)) as S. destruct (i_pools _ S _ _ G) as (Ek & Hi & _ & _ & Np & _). injection Ek as Ek.
  unfold q_pool. destruct (Z.eqb_spec i 0); [lia|]. rewrite G. unfold pool_response. destruct (get_pair (snd c) (pl_pair p)) as [pr|] eqn:Gp; [|congruence]. cbn zeta.
  destruct (pl_disabled p); [reflexivity|]. destruct H as [H|[Kd H]]; [discriminate H|]. destruct (H pr eq_refl) as [H1 H2]. unfold amm_pool, pool_rx, pool_ry. rewrite Kd, <- Ek. cbn [of_res].
  destruct (basic_price _ _ 0 H1 H2) as (pp & Ep & _). rewrite Ep. reflexivity.
Qed.
Print Assumptions C68_pool_answers_partial.
(** The listing of pools: complete and without repetition when each of the pools asked for can be shown. *)
Theorem C68_pools_partial : forall Q c i dis, reach (sane Q) c -> (forall p, get_pool (snd c) (pl_id p) = Some p -> i = 0 \/ pl_pair p = i -> (forall b, dis = Some b -> pl_disabled p = b) -> is_some (q_pool (snd c) (pl_id p)) = true) ->
  exists all, lists (q_pools (snd c) i dis) all /\ StronglySorted (fun a b => pl_id (pv_pool a) < pl_id (pv_pool b)) all /\
  forall v, In v all <-> q_pool (snd c) (pl_id (pv_pool v)) = Some v /\ (i = 0 \/ pl_pair (pv_pool v) = i) /\ (forall b, dis = Some b -> pl_disabled (pv_pool v) = b).
Proof.
  intros Q c i dis R H. pose proof (v_str _ _ (reach_okp Q c R)) as S.
  assert (Sh : forall p, shown dis (Some p) = true <-> forall b, dis = Some b -> pl_disabled p = b).
  { intros p. destruct dis as [b|]; cbn [shown]; [|split; [intros _ b X; discriminate X|reflexivity]]. rewrite Bool.eqb_true_iff. split; [intros E b' X; injection X as <-; exact E|intros X; apply X; reflexivity]. }
  assert (W : forall p, get_pool (snd c) (pl_id p) = Some p -> q_pool (snd c) (pl_id p) = pool_response (snd c) p).
  { intros p G. unfold q_pool. destruct (i_pools _ S _ _ G) as (_ & Hi & _). destruct (Z.eqb_spec (pl_id p) 0); [lia|]. rewrite G. reflexivity. }
  destruct (pools_listed (snd c) i dis S) as (all & L & So & M).
  { intros p G P X. pose proof (proj1 (Sh p) X) as X1. clear X. rename X1 into X. specialize (H p G P X). rewrite (W p G) in H. destruct (pool_response (snd c) p); [discriminate|discriminate H]. }
  exists all. split; [exact L|]. split; [exact So|]. intros v. rewrite M. split.
  - intros (G & P & X & Rv). rewrite (W _ G). split; [exact Rv|]. split; [exact P|exact (proj1 (Sh _) X)].
  - intros (Qv & P & X). assert (G : get_pool (snd c) (pl_id (pv_pool v)) = Some (pv_pool v)).
    { unfold q_pool in Qv. destruct (pl_id (pv_pool v) =? 0); [discriminate Qv|]. destruct (get_pool (snd c) (pl_id (pv_pool v))) as [p|] eqn:G; [|discriminate Qv]. rewrite (response_pool _ _ _ Qv). reflexivity. }
    split; [exact G|]. split; [exact P|]. split; [exact (proj2 (Sh _) X)|]. rewrite <- (W _ G). exact Qv.
Qed.
Print Assumptions C68_pools_partial.
(** It does not always answer: in the state of C43_gift_refuted the query for the pool fails, and with
    it the listing of all pools, whatever the page size. *)
Lemma first_blocks s : (match st_pools s with e :: _ => negb (is_some (pool_response s (snd e))) | [] => false end) = true ->
  forall limit count, 0 <= limit -> q_pools s 0 None (mkPage None 0 limit count) = None.
Proof.
  intros H limit count L. unfold q_pools. cbn [Z.eqb]. unfold paginate. cbn [pg_offset pg_key pg_limit pg_count is_some]. rewrite andb_false_r. destruct (st_pools s) as [|e t]; [discriminate H|].
  assert (N : pool_response s (snd e) = None) by (destruct (pool_response s (snd e)); [discriminate H|reflexivity]).
  cbn [page_off shown]. rewrite N. assert (P : 0 <? 0 + (if limit =? 0 then 100 else limit) = true) by (destruct (Z.eqb_spec limit 0); lia). rewrite P. reflexivity.
Qed.
Theorem C68_pools_refuted : exists s i, reach (sane any_params) (InBlock, s) /\ is_some (get_pool s i) = true /\ q_pool s i = None /\
  forall limit count, 0 <= limit -> q_pools s 0 None (mkPage None 0 limit count) = None.
Proof.
  assert (F : let c := rich_after (ex_params 1) gift in fst c = InBlock /\ is_some (get_pool (snd c) 1) = true /\ is_some (q_pool (snd c) 1) = false /\
    (match st_pools (snd c) with e :: _ => negb (is_some (pool_response (snd c) (snd e))) | [] => false end) = true) by (vm_compute; repeat split).
  destruct F as (F1 & F2 & F4 & F5). exists (snd (rich_after (ex_params 1) gift)), 1.
  split; [apply rich_in_block; [reflexivity|split; [exact Logic.I|reflexivity]|exact F1]|]. split; [exact F2|]. split; [|apply first_blocks; exact F5].
  destruct (q_pool (snd (rich_after (ex_params 1) gift)) 1); [discriminate F4|reflexivity].
Qed.
Print Assumptions C68_pools_refuted.
(** Listings of pairs: all of them in order of id; those trading a given denomination against any
    other; those trading two given denominations, in either order.  [rank] stands for the byte order of
    denominations in the keys; it only has to tell them apart. *)
Theorem C68_all_pairs : forall Q rank c x, reach (sane Q) c -> exists all, lists (q_pairs (snd c) rank x []) (map Some all) /\
  StronglySorted (fun a b => pr_id a < pr_id b) all /\ forall p, In p all <-> q_pair (snd c) (pr_id p) = Some p.
Proof.
  intros Q rank c x R. pose proof (v_str _ _ (reach_okp Q c R)) as S. destruct (all_pairs_listed (snd c) rank x S) as (all & L & So & M). exists all. split; [exact L|]. split; [exact So|].
  intros p. rewrite M. unfold q_pair. destruct (Z.eqb_spec (pr_id p) 0) as [E|]; [|reflexivity]. split; [|intros X; discriminate X]. intros G. destruct (i_pairs _ S _ _ G) as (_ & H & _). lia.
Qed.
Print Assumptions C68_all_pairs.
Theorem C68_pairs_one_denom : forall Q rank c x a, (forall d e, rank d = rank e -> d = e) -> qreach rank (sane Q) c x -> exists all, lists (q_pairs (snd c) rank x [a]) (map Some all) /\
  NoDup all /\ forall p, In p all <-> get_pair (snd c) (pr_id p) = Some p /\ (pr_base p = a \/ pr_quote p = a).
Proof. intros Q rank c x a Inj R. apply one_denom_listed; [exact Inj|exact (v_str _ _ (reach_okp Q c (qreach_reach _ _ _ _ R)))|exact (qreach_ok _ _ _ _ R)]. Qed.
Print Assumptions C68_pairs_one_denom.
Theorem C68_pairs_two_denoms : forall Q rank c x a b, (forall d e, rank d = rank e -> d = e) -> qreach rank (sane Q) c x -> exists all, lists (q_pairs (snd c) rank x [a; b]) (map Some all) /\
  StronglySorted (fun p q => pr_id p < pr_id q) all /\ forall p, In p all <-> get_pair (snd c) (pr_id p) = Some p /\ trades p a b.
Proof. intros Q rank c x a b Inj R. apply two_denoms_listed; [exact Inj|exact (v_str _ _ (reach_okp Q c (qreach_reach _ _ _ _ R)))|exact (qreach_ok _ _ _ _ R)]. Qed.
Print Assumptions C68_pairs_two_denoms.

(** A history with its indexes: three pairs and two pools. *)
Fixpoint qplay (rank : denom -> Z) (c : config) (x : qidx) (l : list action) : config * qidx :=
  match l with
  | [] => (c, x)
  | a :: t => match play1 c a with Some c' => qplay rank c' (match a with AMsg m => index_msg rank (snd c) m x | _ => x end) t | None => (c, x) end
  end.
Lemma qplay_reach rank Q l : forall c x, qreach rank (sane Q) c x -> qreach rank (sane Q) (fst (qplay rank c x l)) (snd (qplay rank c x l)).
Proof.
  induction l as [|a l IH]; intros c x R; cbn [qplay]; [exact R|]. destruct (play1 c a) as [c'|] eqn:E; [|exact R]. apply IH. destruct c as [ph s]. pose proof (play1_step (sane Q) _ _ _ E) as St. destruct a as [t|m|]; cbn in E.
  - destruct ph; [|discriminate E]. destruct (st_time s <=? t); [|discriminate E]. injection E as <-. eapply QReach_begin; [exact R|exact St].
  - assert (X : (forall p, m <> MUpdateParams p) /\ ph = InBlock /\ exists s', deliver s m = Some s' /\ c' = (InBlock, s')).
    { destruct m; try discriminate E; (destruct ph; [discriminate E|]; match type of E with context [deliver s ?m] => destruct (deliver s m) as [s'|] eqn:D end; [|discriminate E];
      injection E as <-; split; [discriminate|]; split; [reflexivity|]; exists s'; split; reflexivity). }
    destruct X as (N & -> & s' & D & ->). cbn [snd]. eapply QReach_msg; [exact R|exact D|]. intros p ->. exfalso. exact (N p eq_refl).
  - destruct ph; [discriminate E|]. destruct (end_block idl s) as [s'|]; [|discriminate E]. injection E as <-. eapply QReach_end; [exact R|exact St].
Qed.
Definition ex_rank (d : denom) : Z := match d with Coin k => 2 * k | PoolCoin k => 2 * k + 1 end.
Definition queried : list action := pools2 ++ [AMsg (MCreatePair 2 (Coin 2) (Coin 1)); AMsg (MCreatePair 2 (Coin 1) (Coin 9))].
Definition queried_c : config * qidx := qplay ex_rank (Between, ex_start 1) no_idx queried.
Definition pair_ids (r : option (list (option pair) * page_res)) : list Z := match r with Some (l, _) => map (fun p => match p with Some p => pr_id p | None => 0 end) l | None => [] end.
Definition pool_ids (r : option (list pool_view * page_res)) : list Z := match r with Some (l, _) => map (fun v => pl_id (pv_pool v)) l | None => [] end.
Definition zl_eqb (l m : list Z) : bool := (Nat.eqb (length l) (length m)) && forallb (fun p => fst p =? snd p) (combine l m).
(** One run for the examples of C68, C69 and C44. *)
Lemma queried_run :
  (let s := snd (fst queried_c) in let x := snd queried_c in let first n := mkPage None 0 n false in
   zl_eqb (pair_ids (q_pairs s ex_rank x [] (first 2))) [1; 2] && zl_eqb (pair_ids (q_pairs s ex_rank x [Coin 9] (first 5))) [3] &&
   zl_eqb (pair_ids (q_pairs s ex_rank x [Coin 1] (first 5))) [1; 2; 3] && zl_eqb (pair_ids (q_pairs s ex_rank x [Coin 1; Coin 2] (first 5))) [1; 2] &&
   zl_eqb (pool_ids (q_pools s 1 (Some false) (first 5))) [1; 2] && zl_eqb (pool_ids (q_pools s 1 (Some true) (first 5))) []) = true /\
  (let s := snd (fst queried_c) in let x := snd queried_c in is_some (q_pool_by_reserve s x (PoolReserve 2)) && negb (is_some (q_pool_by_reserve s x (PoolReserve 3))) && is_some (q_pool_by_denom s (PoolCoin 1))) = true /\
  (let g := export_genesis (snd (fst queried_c)) [] in let x' := index_genesis ex_rank (g_pairs g) (g_pools g) in
   zl_eqb (map (fun e => snd (fst e)) (x_lookup x' (Coin 1))) [1; 2; 3] && match x_reserve x' (PoolReserve 2) with Some i => i =? 2 | None => false end) = true.
Proof. vm_compute. repeat split. Qed.
Example C68_example : (forall d e, ex_rank d = ex_rank e -> d = e) /\ qreach ex_rank (sane any_params) (fst queried_c) (snd queried_c) /\
  (let s := snd (fst queried_c) in let x := snd queried_c in let first n := mkPage None 0 n false in
   zl_eqb (pair_ids (q_pairs s ex_rank x [] (first 2))) [1; 2] && zl_eqb (pair_ids (q_pairs s ex_rank x [Coin 9] (first 5))) [3] &&
   zl_eqb (pair_ids (q_pairs s ex_rank x [Coin 1] (first 5))) [1; 2; 3] && zl_eqb (pair_ids (q_pairs s ex_rank x [Coin 1; Coin 2] (first 5))) [1; 2] &&
   zl_eqb (pool_ids (q_pools s 1 (Some false) (first 5))) [1; 2] && zl_eqb (pool_ids (q_pools s 1 (Some true) (first 5))) []) = true.
Proof.
  split; [intros [d|d] [e|e] H; cbn [ex_rank] in H; try lia; f_equal; lia|]. split; [|exact (proj1 queried_run)].
  apply qplay_reach. apply QReach_genesis. apply ex_genesis. reflexivity.
Qed.

(** ** C69: single lookups agree with the listings and with each other: a pool is found by its reserve
    address and by its pool coin denomination, and no other address or denomination finds a pool; the
    number of market making orders reported is the number of live ones. *)
Theorem C69_pool_by_reserve : forall Q rank c x a, qreach rank (sane Q) c x ->
  (forall v, q_pool_by_reserve (snd c) x a = Some v <-> exists i, a = PoolReserve i /\ q_pool (snd c) i = Some v).
Proof.
  intros Q rank c x a R v. pose proof (qreach_ok _ _ _ _ R) as I. pose proof (v_str _ _ (reach_okp Q c (qreach_reach _ _ _ _ R))) as S. unfold q_pool_by_reserve, q_pool. split.
  - intros H. destruct (x_reserve x a) as [i|] eqn:E; [|discriminate H]. apply (ix_reserve _ _ _ I) in E. destruct E as [E G]. exists i. split; [exact E|].
    destruct (get_pool (snd c) i) as [p|] eqn:Gp; [|discriminate G]. destruct (i_pools _ S _ _ Gp) as (Ek & Hi & _). injection Ek as Ek. destruct (Z.eqb_spec i 0); [lia|exact H].
  - intros (i & -> & H). destruct (i =? 0); [discriminate H|]. destruct (get_pool (snd c) i) as [p|] eqn:Gp; [|discriminate H].
    assert (E : x_reserve x (PoolReserve i) = Some i) by (apply (ix_reserve _ _ _ I); rewrite Gp; split; reflexivity). rewrite E, Gp. exact H.
Qed.
Print Assumptions C69_pool_by_reserve.
Theorem C69_pool_by_coin : forall Q c d v, reach (sane Q) c -> q_pool_by_denom (snd c) d = Some v <-> exists i, d = PoolCoin i /\ q_pool (snd c) i = Some v.
Proof.
  intros Q c d v R. pose proof (v_str _ _ (reach_okp Q c R)) as S. unfold q_pool_by_denom, q_pool. split.
  - intros H. destruct d as [k|i]; [discriminate H|]. exists i. split; [reflexivity|]. destruct (get_pool (snd c) i) as [p|] eqn:Gp; [|discriminate H]. destruct (i_pools _ S _ _ Gp) as (Ek & Hi & _). injection Ek as Ek. destruct (Z.eqb_spec i 0); [lia|exact H].
  - intros (i & -> & H). destruct (i =? 0); [discriminate H|]. exact H.
Qed.
Print Assumptions C69_pool_by_coin.
Theorem C69_mm_number : forall Q c a i, reach (sane Q) c -> i <> 0 -> q_num_mm (snd c) a i = Some (live_mm_orders (snd c) a i).
Proof. intros Q c a i R Ni. unfold q_num_mm. destruct (Z.eqb_spec i 0); [contradiction|]. rewrite (C38_mm_counter_exact Q c a i R). reflexivity. Qed.
Print Assumptions C69_mm_number.
Example C69_example : qreach ex_rank (sane any_params) (fst queried_c) (snd queried_c) /\
  (let s := snd (fst queried_c) in let x := snd queried_c in is_some (q_pool_by_reserve s x (PoolReserve 2)) && negb (is_some (q_pool_by_reserve s x (PoolReserve 3))) && is_some (q_pool_by_denom s (PoolCoin 1))) = true /\
  match q_num_mm (snd (after 1 trade2)) (User 1) 1 with Some n => n =? 2 | None => false end = true.
Proof. split; [exact (proj1 (proj2 C68_example))|]. split; [exact (proj1 (proj2 queried_run))|vm_compute; reflexivity]. Qed.

(** ** C44, the part on queries: importing the exported state rebuilds the query-only indexes exactly. *)
Theorem C44_query_indexes : forall Q rank c x mm, qreach rank (sane Q) c x ->
  let g := export_genesis (snd c) mm in let x' := index_genesis rank (g_pairs g) (g_pools g) in
  (forall a, x_lookup x' a = x_lookup x a) /\ (forall a, x_reserve x' a = x_reserve x a).
Proof. intros Q rank c x mm R g x'. exact (genesis_indexes rank (snd c) x (v_str _ _ (reach_okp Q c (qreach_reach _ _ _ _ R))) (qreach_ok _ _ _ _ R)). Qed.
Print Assumptions C44_query_indexes.
Example C44_query_example : qreach ex_rank (sane any_params) (fst queried_c) (snd queried_c) /\
  (let g := export_genesis (snd (fst queried_c)) [] in let x' := index_genesis ex_rank (g_pairs g) (g_pools g) in
   zl_eqb (map (fun e => snd (fst e)) (x_lookup x' (Coin 1))) [1; 2; 3] && match x_reserve x' (PoolReserve 2) with Some i => i =? 2 | None => false end) = true.
Proof. split; [exact (proj1 (proj2 C68_example))|exact (proj2 (proj2 queried_run))]. Qed.
