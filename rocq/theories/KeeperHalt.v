(** The end blocker completes: every place where it could fail is discharged from the invariants. *)
From Verif Require Import Base Dec DecProofs TickModel TickSpec TickProofs OrderModel MatchModel MatchSpec OrderProofs MatchProofs MatchBookProofs MatchTop CrossProofs PoolModel PoolProofs PoolOrderProofs PoolViewProofs
  KeeperModel KeeperLib KeeperSpec KeeperMicro KeeperInv KeeperBank KeeperSteps KeeperReqs KeeperOrders KeeperBulk KeeperTrade KeeperSettle KeeperCancel CoverSpec KeeperCover KeeperHist InvariantProofs.
From Coq Require Import Permutation.

Lemma for_each_total {A} (f : A -> state -> option state) l : forall s,
  (forall l1 x l2 t, l = l1 ++ x :: l2 -> for_each f l1 s = Some t -> f x t <> None) -> for_each f l s <> None.
Proof.
  induction l as [|x l IH]; intros s H; cbn [for_each]; [discriminate|].
  pose proof (H [] x l s eq_refl eq_refl) as X. destruct (f x s) as [s1|] eqn:E; [|congruence]. apply IH. intros l1 y l2 t El Et.
  apply (H (x :: l1) y l2 t); [cbn; rewrite El; reflexivity|]. cbn [for_each]. rewrite E. exact Et.
Qed.

(** A live order's remaining offer coin is part of what the escrow owes. *)
Lemma owed_covers s o (Q : ctl) : inv Q s -> get_order s (ko_pair o) (ko_id o) = Some o -> live o = true ->
  0 <= slack s (ko_pair o) (ko_offer_denom o) -> ko_remaining o <= bal (st_bank s) (PairEscrow (ko_pair o)) (ko_offer_denom o).
Proof.
  intros I G L S. unfold slack in S. enough (ko_remaining o <= orders_owed s (ko_pair o) (ko_offer_denom o)) by lia.
  pose proof (msum_ge1 (due (ko_pair o) (ko_offer_denom o)) (st_orders s) (ko_pair o, ko_id o) o) as X.
  assert (D : due (ko_pair o) (ko_offer_denom o) o = ko_remaining o) by (unfold due; rewrite L, Z.eqb_refl; destruct (denom_eqb_spec (ko_offer_denom o) (ko_offer_denom o)); [reflexivity|congruence]).
  rewrite D in X. apply X; [|apply mget_In; exact G]. intros k v Hin. unfold due. destruct (live v && (ko_pair v =? ko_pair o) && denom_eqb (ko_offer_denom o) (ko_offer_denom v)); [|lia].
  destruct (i_orders _ (v_str _ _ I) _ _ (snap_current _ _ _ (i_orders_sorted _ (v_str _ _ I)) Hin)) as (_ & pr & _ & Ok). destruct Ok as (_ & _ & _ & _ & _ & _ & _ & _ & R & _). lia.
Qed.

Lemma user_order_ok (Q : ctl) s k o : inv Q s -> mget (st_orders s) k = Some o -> exists uo, user_order o = Ok uo.
Proof.
  intros I G. destruct (i_orders _ (v_str _ _ I) _ _ G) as (_ & pr & _ & Ok). destruct Ok as (_ & _ & _ & _ & _ & _ & P & _).
  unfold user_order. destruct (ko_dir o); [|cbn [rbind]; eauto].
  match goal with |- context [safe_math ?r ?d] => destruct (safe_math_not_panic r d) as (a & ->) end; [|cbn [rbind]; eauto].
  repeat no_panic. lia.
Qed.

Lemma collect_orders_total (Q : ctl) i l : batching Q -> stage_of Q <> STrade -> forall s h, inv Q s -> get_pair s i <> None -> NoDup (map fst l) -> (forall k o, In (k, o) l -> mget (st_orders s) k = Some o /\ fst k = i) ->
  (forall d, 0 <= slack s i d) -> collect_orders l s h <> None.
Proof.
  intros HB HS. induction l as [|[k o] l IH]; intros s h I Gp N C S; cbn [collect_orders]; [discriminate|].
  inversion N as [|? ? N1 N2]; subst. destruct (C k o (or_introl eq_refl)) as [G Ei].
  destruct (i_orders _ (v_str _ _ I) _ _ G) as (Ek & pr & Gp' & Ok). assert (Ep : ko_pair o = i) by (rewrite <- Ei, Ek; reflexivity).
  assert (Go : get_order s (ko_pair o) (ko_id o) = Some o) by (unfold get_order; rewrite <- Ek; exact G).
  assert (Kl : forall k' o', In (k', o') l -> k' <> k) by (intros k' o' X ->; apply N1; change k with (fst (k, o')); apply in_map; exact X).
  destruct (o_terminal (ko_status o)) eqn:T; [apply IH; auto; intros k' o' X; apply C; right; exact X|].
  assert (L : live o = true) by (unfold live; rewrite T; reflexivity).
  assert (Next : forall s2, mics Q s s2 -> same_rest s s2 -> (forall k', k' <> k -> mget (st_orders s2) k' = mget (st_orders s) k') ->
     inv Q s2 /\ get_pair s2 i <> None /\ (forall k o, In (k, o) l -> mget (st_orders s2) k = Some o /\ fst k = i) /\ forall d, 0 <= slack s2 i d).
  { intros s2 M R F. split; [exact (inv_mics Q _ _ M I)|]. split; [destruct R as (R & _); unfold get_pair in *; rewrite R; exact Gp|].
    split; [intros k' o' X; rewrite (F k' (Kl _ _ X)); apply C; right; exact X|]. intros d. pose proof (slack_mics Q s s2 i d M I HS). specialize (S d). lia. }
  match goal with |- (if ?e then _ else _) <> None => destruct e end.
  - pose proof (finish_order_succeeds s o OExpired L) as X. rewrite Ep in X. specialize (X Gp). rewrite <- Ep in X.
    specialize (X (owed_covers s o Q I Go L ltac:(rewrite Ep; apply S))).
    destruct (finish_order s o OExpired) as [s2|] eqn:Ef; [|congruence].
    destruct (Next s2) as (X1 & X2 & X3 & X4); [exact (finish_order_mics Q s o OExpired s2 (ends_batch Q OExpired HB ltac:(discriminate)) Go eq_refl Ef)|exact (finish_order_rest _ _ _ _ Ef L)|rewrite Ek; exact (finish_order_orders _ _ _ _ Ef)|].
    apply IH; assumption.
  - destruct (user_order_ok Q s k o I G) as (uo & Eu). rewrite Eu. cbn [of_res].
    set (s2 := match ko_status o with ONotExecuted => put_order s (ko_with_status o ONotMatched) | _ => s end).
    destruct (Next s2) as (X1 & X2 & X3 & X4); [| | |apply IH; assumption].
    + unfold s2. destruct (ko_status o) eqn:Es; try constructor. apply mics_one. destruct Ok as (_ & _ & _ & _ & _ & _ & _ & O1 & O2 & O3 & _).
      change (ko_with_status o ONotMatched) with (ko_with_status (ko_with_fill o (ko_remaining o) (ko_received o) (ko_open o)) ONotMatched).
      apply mic_upd; auto; try lia. destruct HB as [HB|HB]; auto.
    + unfold s2; destruct (ko_status o); unfold same_rest; cbn; auto 10.
    + intros k' Nk. unfold s2. destruct (ko_status o); try reflexivity. cbn. apply mget_mset_neq. rewrite <- Ek. assumption.
Qed.

(** No active pool of another kind than basic. *)
Definition basic_only (s : state) : Prop := forall k p, get_pool s k = Some p -> pl_disabled p = false -> pl_kind p = PBasic.

Lemma basic_mark s p : get_pool s (pl_id p) = Some p -> basic_only s -> basic_only (mark_disabled s p).
Proof.
  intros G B k q H D. destruct (mark_disabled_get s p k q H) as [[_ X]|X]; [congruence|exact (B k q X D)].
Qed.

Lemma basic_amm s k p rx ry ps : basic_only s -> get_pool s k = Some p -> pl_disabled p = false -> amm_pool p rx ry ps = Ok (Basic rx ry ps).
Proof. intros B G D. unfold amm_pool. rewrite (B k p G D). reflexivity. Qed.

Lemma collect_pools_total (Q : ctl) pr l : batching Q -> forall s, inv Q s -> basic_only s -> (forall kv, In kv l -> get_pool s (snd (fst kv)) <> None) ->
  exists s2 ps, collect_pools l pr s = Some (s2, ps) /\ basic_only s2 /\
    Forall (fun ip => exists rx ry psu, snd ip = Basic rx ry psu /\ 0 < rx /\ 0 < ry) ps.
Proof.
  intros HB. induction l as [|[k u] l IH]; intros s I B E; cbn [collect_pools]; [exists s, []; auto|].
  pose proof (E _ (or_introl eq_refl)) as X. cbn [fst snd] in X. destruct (get_pool s (snd k)) as [p|] eqn:G; [|congruence].
  assert (E' : forall kv, In kv l -> get_pool s (snd (fst kv)) <> None) by (intros kv Hkv; apply E; right; exact Hkv).
  destruct (pl_disabled p) eqn:D; [apply IH; assumption|]. rewrite (basic_amm s _ p _ _ _ B G D). cbn [of_res].
  assert (Eid : pl_id p = snd k) by (eapply get_pool_id; [exact (v_str _ _ I)|eassumption]).
  destruct (is_depleted (Basic (pool_rx s p pr) (pool_ry s p pr) (pool_ps s p))) eqn:Dp.
  - assert (M : mics Q s (mark_disabled s p)) by (apply mics_one, mic_disable; [rewrite Eid; assumption|exact HB]).
    apply IH; [exact (inv_mics Q _ _ M I)|apply basic_mark; [rewrite Eid; exact G|exact B]|]. intros kv Hkv.
    pose proof (E' kv Hkv) as Y. unfold mark_disabled, get_pool, put_pool, set_pools in *. cbn [st_pools] in *. rewrite mget_mset. destruct (key_eqb _ _); [discriminate|exact Y].
  - destruct (IH s I B E') as (s2 & ps & -> & B2 & F). exists s2. eexists. split; [reflexivity|]. split; [exact B2|]. constructor; [|exact F].
    cbn [snd]. eexists. eexists. eexists. split; [reflexivity|]. cbn [is_depleted] in Dp. destruct (v_bank _ _ I) as [N _].
    apply orb_false_iff in Dp. destruct Dp as [Dp D3]. apply orb_false_iff in Dp. destruct Dp as [_ D2].
    apply Z.eqb_neq in D2. apply Z.eqb_neq in D3. pose proof (N (PoolReserve (pl_id p)) (pr_quote pr)). pose proof (N (PoolReserve (pl_id p)) (pr_base pr)).
    unfold pool_rx, pool_ry in *. lia.
Qed.

(** ** The orders the pools submit *)
Definition by_pool (id : Z) (d : dir) (o : order) : bool := match o_kind o with KPool j => j =? id | _ => false end && dir_eqb (o_dir o) d.
Definition offered_by (id : Z) (d : dir) (os : list order) : Z := sumZ (map o_offer (filter (by_pool id d) os)).
(** What pool [ip] submits is covered by its reserves, and its buys are below its sells. *)
Definition pool_fair (ip : Z * pool) (os : list order) : Prop :=
  offered_by (fst ip) Buy os <= p_rx (snd ip) /\ offered_by (fst ip) Sell os <= p_ry (snd ip) /\
  forall f g, In f os -> In g os -> by_pool (fst ip) Buy f = true -> by_pool (fst ip) Sell g = true -> o_price f < o_price g.

Definition fine_pool (ip : Z * pool) : Prop := exists rx ry psu, snd ip = Basic rx ry psu /\ 0 < rx < 2 ^ 196 /\ 0 < ry < 2 ^ 196.

Lemma offered_app id d a b : offered_by id d (a ++ b) = offered_by id d a + offered_by id d b.
Proof. unfold offered_by. rewrite filter_app, map_app, sumZ_app. reflexivity. Qed.
Lemma offered_none id d os : Forall (fun o => by_pool id d o = false) os -> offered_by id d os = 0.
Proof. unfold offered_by. induction 1 as [|o os H F IH]; [reflexivity|]. cbn [filter]. rewrite H. exact IH. Qed.

(** Orders of one pool only. *)
Definition only_of (id : Z) (os : list order) : Prop := Forall (fun o => o_kind o = KPool id) os.
Lemma only_other id id' d os : only_of id os -> id' <> id -> Forall (fun o => by_pool id' d o = false) os.
Proof.
  intros H N. eapply Forall_impl; [|exact H]. intros o E. unfold by_pool. rewrite E. destruct (Z.eqb_spec id id'); [congruence|reflexivity].
Qed.

(** Per-pool lists concatenated: what is true of each list is true of the whole. *)
Lemma fair_concat (gen : Z * pool -> list order) ps : NoDup (map fst ps) -> (forall ip, In ip ps -> only_of (fst ip) (gen ip) /\ pool_fair ip (gen ip)) ->
  forall ip, In ip ps -> pool_fair ip (flat_map gen ps).
Proof.
  intros N H ip Hin. apply in_split in Hin. destruct Hin as (l1 & l2 & ->).
  destruct (H ip ltac:(apply in_app_iff; right; left; reflexivity)) as (O & F1 & F2 & F3).
  rewrite map_app in N. cbn [map] in N. apply NoDup_remove_2 in N.
  assert (Oth : forall d l, (forall x, In x l -> In x (l1 ++ ip :: l2)) -> (forall x, In x l -> fst x <> fst ip) -> Forall (fun o => by_pool (fst ip) d o = false) (flat_map gen l)).
  { intros d l Hl Hn. apply Forall_forall. intros o Ho. apply in_flat_map in Ho. destruct Ho as (x & Hx & Ho).
    destruct (H x (Hl x Hx)) as (Ox & _). pose proof (only_other _ (fst ip) d _ Ox ltac:(intros E; apply (Hn x Hx); symmetry; exact E)) as X. rewrite Forall_forall in X. exact (X o Ho). }
  assert (N1 : forall x, In x l1 -> fst x <> fst ip) by (intros x Hx E; apply N; apply in_app_iff; left; rewrite <- E; apply in_map; exact Hx).
  assert (N2 : forall x, In x l2 -> fst x <> fst ip) by (intros x Hx E; apply N; apply in_app_iff; right; rewrite <- E; apply in_map; exact Hx).
  assert (A1 : forall d, Forall (fun o => by_pool (fst ip) d o = false) (flat_map gen l1)) by (intros d; apply Oth; [intros x Hx; apply in_app_iff; left; exact Hx|exact N1]).
  assert (A2 : forall d, Forall (fun o => by_pool (fst ip) d o = false) (flat_map gen l2)) by (intros d; apply Oth; [intros x Hx; apply in_app_iff; right; right; exact Hx|exact N2]).
  rewrite flat_map_app. cbn [flat_map]. unfold pool_fair. rewrite !offered_app, !(offered_none _ _ (flat_map gen l1)), !(offered_none _ _ (flat_map gen l2)) by auto.
  split; [lia|]. split; [lia|].
  assert (In3 : forall d o, In o (flat_map gen l1 ++ gen ip ++ flat_map gen l2) -> by_pool (fst ip) d o = true -> In o (gen ip)).
  { intros d o Ho Hb. apply in_app_iff in Ho. destruct Ho as [Ho|Ho]; [pose proof (A1 d) as X; rewrite Forall_forall in X; rewrite (X o Ho) in Hb; discriminate Hb|].
    apply in_app_iff in Ho. destruct Ho as [Ho|Ho]; [exact Ho|]. pose proof (A2 d) as X; rewrite Forall_forall in X; rewrite (X o Ho) in Hb; discriminate Hb. }
  intros f g Hf Hg Bf Bg. exact (F3 f g (In3 _ f Hf Bf) (In3 _ g Hg Bg) Bf Bg).
Qed.

Lemma by_pool_order id d i e po : by_pool id d (pool_order i e po) = (i =? id) && dir_eqb e d.
Proof. reflexivity. Qed.
Lemma offered_map id d i e pos : offered_by id d (map (pool_order i e) pos) = if (i =? id) && dir_eqb e d then sumZ (map (fun po => offer_coin_amount e (fst po) (snd po)) pos) else 0.
Proof.
  unfold offered_by. induction pos as [|po pos IH]; [cbn; destruct ((i =? id) && dir_eqb e d); reflexivity|].
  cbn [map filter]. rewrite by_pool_order. destruct ((i =? id) && dir_eqb e d) eqn:E; [|exact IH]. cbn [map]. rewrite !sumZ_cons. rewrite IH. reflexivity.
Qed.
Lemma buy_offer price amt : 0 <= price -> 0 <= amt -> offer_coin_amount Buy price amt = ceil_value price amt.
Proof. intros A B. unfold offer_coin_amount. apply ceil_value_dec. nia. Qed.

(** At the single match price. *)
Lemma orders_at_fair mp ip : 0 < mp -> fine_pool ip -> only_of (fst ip) (orders_at mp ip) /\ pool_fair ip (orders_at mp ip).
Proof.
  intros Hm (rx & ry & psu & E & X & Y). destruct ip as [id p]. cbn [fst snd] in *. subst p. pose proof P18_pos as Hp.
  destruct (pool_view_ok rx ry psu mp X Y Hm) as (pp & b & c & Ep & P0 & Eb & Ec).
  destruct (buy_amount_over_spec (Basic rx ry psu) mp b ltac:(cbn; lia) ltac:(cbn; lia) Hm Eb) as (B1 & B2 & B3).
  destruct (sell_amount_under_spec (Basic rx ry psu) mp c ltac:(cbn; lia) ltac:(cbn; lia) Hm Ec) as (C1 & C2). cbn [p_rx p_ry] in *.
  unfold orders_at. cbn [fst snd]. rewrite Eb, Ec. cbn [ok_or0].
  assert (Cb : ceil_value mp b <= rx).
  { unfold ceil_value, of_int in *. assert (- rx <= (- (mp * b)) / P18) by (apply Z.div_le_lower_bound; lia). lia. }
  assert (Ex : 0 < b -> 0 < c -> False).
  { intros Hb Hc. destruct (B3 ltac:(lia)) as (p1 & E1 & L1). destruct (C2 ltac:(lia)) as (p2 & E2 & L2). rewrite E1 in E2. injection E2 as ->. lia. }
  split.
  - unfold only_of. apply Forall_app. split; [destruct (0 <? b)|destruct (0 <? c)]; repeat constructor.
  - unfold pool_fair. cbn [fst snd p_rx p_ry]. rewrite !offered_app.
    pose proof (offered_map id Buy id Buy [(mp, b)]) as O1. pose proof (offered_map id Buy id Sell [(mp, c)]) as O2.
    pose proof (offered_map id Sell id Buy [(mp, b)]) as O3. pose proof (offered_map id Sell id Sell [(mp, c)]) as O4.
    rewrite Z.eqb_refl in O1, O2, O3, O4. cbn [map andb dir_eqb fst snd] in O1, O2, O3, O4.
    rewrite buy_offer in O1 by lia. cbn [offer_coin_amount] in O4. unfold sumZ in O1, O4. cbn [fold_right] in O1, O4.
    destruct (Z.ltb_spec 0 b) as [Hb|Hb], (Z.ltb_spec 0 c) as [Hc|Hc].
    + exfalso. auto.
    + rewrite O1, O3. unfold offered_by at 1 2. cbn [filter map]. unfold sumZ. cbn [fold_right]. split; [lia|]. split; [lia|].
      intros f g Hf Hg _ Bg. destruct Hg as [<-|[]]. rewrite by_pool_order in Bg. rewrite Z.eqb_refl in Bg. discriminate Bg.
    + rewrite O2, O4. unfold offered_by at 1 2. cbn [filter map]. unfold sumZ. cbn [fold_right]. split; [lia|]. split; [lia|].
      intros f g Hf Hg Bf _. destruct Hf as [<-|[]]. rewrite by_pool_order in Bf. rewrite Z.eqb_refl in Bf. discriminate Bf.
    + cbn. split; [lia|]. split; [lia|]. intros f g [].
Qed.

(** Around the last price. *)
Definition gen_around (lo hi prec : Z) (ip : Z * pool) : list order :=
  match pool_buy_orders (snd ip) lo hi prec, pool_sell_orders (snd ip) lo hi prec with
  | Some bs, Some ss => map (pool_order (fst ip) Buy) bs ++ map (pool_order (fst ip) Sell) ss
  | _, _ => []
  end.

Lemma around_fair lo hi prec ip : 0 <= prec -> 0 < lo <= hi -> hi < 2 ^ 315 -> is_tick prec lo -> is_tick prec hi -> fine_pool ip ->
  (exists bs ss, pool_buy_orders (snd ip) lo hi prec = Some bs /\ pool_sell_orders (snd ip) lo hi prec = Some ss) /\
  only_of (fst ip) (gen_around lo hi prec ip) /\ pool_fair ip (gen_around lo hi prec ip).
Proof.
  intros Hprec Hl Hh Tl Th (rx & ry & psu & E & X & Y). destruct ip as [id p]. cbn [fst snd] in *. subst p.
  destruct (basic_price rx ry psu X ltac:(lia)) as (pp & Ep & P0 & _).
  assert (B196 : 2 ^ 196 < 2 ^ 256) by reflexivity.
  destruct (pool_buy_orders_spec (Basic rx ry psu) lo hi prec pp Hprec Hl Th ltac:(cbn; lia) ltac:(cbn; lia) Ep) as (B1 & B2).
  destruct (pool_sell_orders_spec (Basic rx ry psu) lo hi prec pp Hprec Hl Tl ltac:(cbn; lia) ltac:(cbn; lia) Ep P0) as (S1 & S2).
  destruct (B2 Hh ltac:(cbn; lia)) as (bs & Eb). destruct (S2 Hh ltac:(cbn; lia)) as (ss & Es).
  destruct (B1 bs Eb) as (C1 & G1 & _). destruct (S1 ss Es) as (C2 & G2 & _). cbn [p_rx p_ry] in *.
  split; [exists bs, ss; split; assumption|]. unfold gen_around. cbn [fst snd]. rewrite Eb, Es. split.
  - unfold only_of. apply Forall_app. split; apply Forall_map; apply Forall_forall; intros; reflexivity.
  - unfold pool_fair. cbn [fst snd p_rx p_ry]. rewrite !offered_app, !offered_map, Z.eqb_refl. cbn [andb dir_eqb].
    assert (EB : sumZ (map (fun po => offer_coin_amount Buy (fst po) (snd po)) bs) = buy_cost bs).
    { unfold buy_cost. f_equal. apply map_ext_in. intros po Hpo. rewrite Forall_forall in G1. destruct (G1 po Hpo) as (_ & L & _ & A & _). apply buy_offer; [lia|]. unfold min_coin_amount in A. lia. }
    assert (ES : sumZ (map (fun po => offer_coin_amount Sell (fst po) (snd po)) ss) = sell_cost ss) by reflexivity.
    rewrite EB, ES. split; [lia|]. split; [lia|].
    intros f g Hf Hg Bf Bg. apply in_app_iff in Hf, Hg.
    destruct Hf as [Hf|Hf]; apply in_map_iff in Hf; destruct Hf as (po & <- & Hf); [|rewrite by_pool_order, andb_comm in Bf; discriminate Bf].
    destruct Hg as [Hg|Hg]; apply in_map_iff in Hg; destruct Hg as (po' & <- & Hg); [rewrite by_pool_order, andb_comm in Bg; discriminate Bg|].
    rewrite Forall_forall in G1, G2. destruct (G1 _ Hf) as (_ & _ & L1 & _). destruct (G2 _ Hg) as (_ & _ & L2 & _). cbn [o_price pool_order new_order]. lia.
Qed.

Lemma around_total lo hi prec ps : 0 <= prec -> 0 < lo <= hi -> hi < 2 ^ 315 -> is_tick prec lo -> is_tick prec hi -> Forall fine_pool ps ->
  orders_around lo hi prec ps = Some (flat_map (gen_around lo hi prec) ps).
Proof.
  intros Hprec Hl Hh Tl Th F. induction F as [|[id p] ps H F IH]; [reflexivity|]. cbn [orders_around flat_map].
  destruct (around_fair lo hi prec (id, p) Hprec Hl Hh Tl Th H) as ((bs & ss & Eb & Es) & _). cbn [snd] in Eb, Es. unfold gen_around at 1. cbn [fst snd]. rewrite Eb, Es, IH.
  rewrite <- app_assoc. reflexivity.
Qed.

Definition users_only (h : heap) : Prop := Forall (fun o => exists id, o_kind o = KUser id) h.
Lemma fair_users ip h po : users_only h -> pool_fair ip po -> pool_fair ip (h ++ po).
Proof.
  intros U (A & B & C). assert (N : forall d, Forall (fun o => by_pool (fst ip) d o = false) h).
  { intros d. eapply Forall_impl; [|exact U]. intros o (id & E). unfold by_pool. rewrite E. reflexivity. }
  unfold pool_fair. rewrite !offered_app, !(offered_none _ _ h) by apply N. split; [lia|]. split; [lia|].
  assert (In2 : forall d o, In o (h ++ po) -> by_pool (fst ip) d o = true -> In o po).
  { intros d o Ho Hb. apply in_app_iff in Ho. destruct Ho as [Ho|Ho]; [|exact Ho]. pose proof (N d) as X. rewrite Forall_forall in X. rewrite (X o Ho) in Hb. discriminate Hb. }
  intros f g Hf Hg Bf Bg. exact (C f g (In2 _ f Hf Bf) (In2 _ g Hg Bg) Bf Bg).
Qed.
Lemma fair_nil ip : fine_pool ip -> pool_fair ip [].
Proof. intros (rx & ry & psu & E & X & Y). destruct ip as [id p]. cbn in *. subst p. unfold pool_fair, offered_by. cbn. split; [lia|]. split; [lia|]. intros f g []. Qed.

Lemma price_limits_high last ratio prec lo hi : 0 <= prec -> 0 < last -> 0 <= ratio < P18 -> price_limits last ratio prec = Ok (lo, hi) -> hi < 2 ^ 315.
Proof.
  intros Hprec Hl Hr H. pose proof P18_pos as Hp. unfold price_limits, one_dec in H.
  apply rbind_ok in H. destruct H as (a & Ea & H). cbn beta in H. apply rbind_ok in H. destruct H as (lo' & Elo & H). cbn beta in H.
  apply rbind_ok in H. destruct H as (b & Eb & H). cbn beta in H. apply rbind_ok in H. destruct H as (hi' & Ehi & H). cbn beta in H.
  injection H; intros; subst lo' hi'; clear H.
  unfold c_mul in Eb. apply chk_dec_ok in Eb. destruct Eb as [Eb Bb]. rewrite <- Eb in Bb. unfold dmul in Eb.
  assert (B0 : 0 < b).
  { assert (last <= b); [|lia]. subst b. rewrite <- (chop_round_exact last) at 1. apply chop_round_mono; nia. }
  unfold price_to_down_tick_chk in Ehi. destruct (Z.eqb_spec b 0); [lia|]. injection Ehi; clear Ehi; intros Ehi.
  destruct (price_to_down_tick_spec b prec Hprec ltac:(lia)) as (D1 & D2 & D3). rewrite Ehi in *. lia.
Qed.

Definition has_limits (prm : params) (last : option dec) : Prop :=
  forall l, last = Some l -> 0 < l /\ exists lo hi, price_limits l (pm_price_ratio prm) (pm_tick_prec prm) = Ok (lo, hi) /\ lo <= hi.

Lemma kmatch_total iter prm h ps last : is_perm_iter iter -> 0 <= pm_tick_prec prm <= 18 -> 0 <= pm_price_ratio prm < P18 -> Forall fresh_order h -> users_only h ->
  Forall fine_pool ps -> NoDup (map fst ps) -> has_limits prm last ->
  exists h1 r, kmatch iter prm h ps last = Some (h1, r) /\ forall ip, In ip ps -> pool_fair ip h1.
Proof.
  intros Hi [Hp0 Hp1] Hr Fh Fu Fp N HL. unfold kmatch. cbn zeta. destruct last as [l|].
  - destruct (HL l eq_refl) as (L0 & lo & hi & El & Hle). rewrite El. cbn [of_res fst snd].
    destruct (price_limits_spec _ _ _ _ _ Hp0 L0 Hr El) as (Tl & Th & _). pose proof (price_limits_high _ _ _ _ _ Hp0 L0 Hr El) as Hh.
    assert (Hlo : 0 < lo) by (exact (tick_pos _ _ Tl)).
    rewrite (around_total lo hi _ ps Hp0 (conj Hlo Hle) Hh Tl Th Fp).
    assert (Fair : forall ip, In ip ps -> pool_fair ip (h ++ flat_map (gen_around lo hi (pm_tick_prec prm)) ps)).
    { intros ip Hin. apply fair_users; [exact Fu|]. apply fair_concat; [exact N| |exact Hin]. intros x Hx. rewrite Forall_forall in Fp.
      apply (around_fair lo hi (pm_tick_prec prm) x Hp0 (conj Hlo Hle) Hh Tl Th (Fp x Hx)). }
    assert (W : Forall wf_order (h ++ flat_map (gen_around lo hi (pm_tick_prec prm)) ps)).
    { apply (Forall_impl _ fresh_wf). apply Forall_app. split; [exact Fh|]. 
      assert (Sp : Forall sound_pool ps).
      { eapply Forall_impl; [|exact Fp]. intros ip (rx & ry & psu & E & X & Y). unfold sound_pool. rewrite E. cbn [p_rx p_ry]. split; [lia|]. split; [lia|].
        intros pp Epp. destruct (basic_price rx ry psu X ltac:(lia)) as (pp' & E' & P0 & _). rewrite E' in Epp. injection Epp as <-. exact P0. }
      eapply Forall_impl; [|exact (orders_around_made lo hi _ ps Hp0 Tl Th Sp _ (around_total lo hi _ ps Hp0 (conj Hlo Hle) Hh Tl Th Fp))].
      intros o (F & _). exact F. }
    destruct (proj1 (match_total iter _ Hi W) l L0) as ([[[h2 mp] qd] m] & ->). eexists. eexists. split; [reflexivity|exact Fair].
  - match goal with |- context [?e && (18 <? pm_tick_prec prm)] => set (c := e) end.
    destruct (Z.ltb_spec 18 (pm_tick_prec prm)); [lia|]. rewrite andb_false_r.
    destruct (find_match_price _ _) as [mp|] eqn:Ef.
    + assert (Hm : 0 < mp) by (eapply find_match_price_pos; [|exact Ef]; lia).
      assert (W : Forall wf_order (h ++ flat_map (orders_at mp) ps)).
      { apply (Forall_impl _ fresh_wf). apply Forall_app. split; [exact Fh|]. eapply Forall_impl; [|exact (orders_at_made mp ps Hm)]. intros o (F & _). exact F. }
      destruct (proj2 (match_total iter _ Hi W) mp Hm) as (r & ->). eexists. eexists. split; [reflexivity|].
      intros ip Hin. apply fair_users; [exact Fu|]. apply fair_concat; [exact N| |exact Hin]. intros x Hx. rewrite Forall_forall in Fp. apply orders_at_fair; [exact Hm|exact (Fp x Hx)].
    + eexists. eexists. split; [reflexivity|]. intros ip Hin. rewrite <- (app_nil_r h). apply fair_users; [exact Fu|]. rewrite Forall_forall in Fp. apply fair_nil. exact (Fp ip Hin).
Qed.

(** ** Applying the match result *)
Lemma q_out_cons e q a d : q_out (e :: q) a d = at_acc a (fst (fst e)) (amount_of (snd e) d) + q_out q a d.
Proof. unfold q_out. cbn [map]. apply sumZ_cons. Qed.
Lemma at_acc_nonneg a b x : 0 <= x -> 0 <= at_acc a b x.
Proof. unfold at_acc. destruct (addr_eqb a b); lia. Qed.
Lemma q_out_nonneg q a d : q_valid q -> 0 <= q_out q a d.
Proof.
  induction 1 as [|e q V F IH]; [unfold q_out; cbn; lia|]. rewrite q_out_cons. pose proof (at_acc_nonneg a (fst (fst e)) (amount_of (snd e) d) (valid_amount_nonneg _ d V)). lia.
Qed.

(** Transfers out of one account succeed if it holds the total. *)
Lemma bulk_from q i : forall b, q_valid q -> from_escrow i q -> (forall d, q_out q (PairEscrow i) d <= bal b (PairEscrow i) d) -> bulk_run b q <> None.
Proof.
  induction q as [|[[f t] cs] q IH]; intros b V F H; cbn [bulk_run]; [discriminate|].
  inversion V as [|? ? V1 V2]; subst. inversion F as [|? ? F1 F2]; subst. cbn [fst snd] in V1, F1. subst f.
  assert (A : forall d, amount_of cs d + q_out q (PairEscrow i) d <= bal b (PairEscrow i) d).
  { intros d. specialize (H d). rewrite q_out_cons in H. cbn [fst snd] in H. unfold at_acc in H. cbn [addr_eqb] in H. rewrite Z.eqb_refl in H. exact H. }
  destruct (send_ok b (PairEscrow i) t cs V1) as (b1 & E).
  { intros d. pose proof (q_out_nonneg q (PairEscrow i) d V2). specialize (A d). lia. }
  rewrite E. apply IH; [exact V2|exact F2|]. intros d. destruct (send_spec _ _ _ _ _ E) as (_ & (M1 & _) & _). rewrite M1.
  specialize (A d). pose proof (at_acc_nonneg (PairEscrow i) t (amount_of cs d) (valid_amount_nonneg _ d V1)). unfold at_acc in *. change (addr_eqb (PairEscrow i) (PairEscrow i)) with (i =? i). rewrite Z.eqb_refl. lia.
Qed.

Lemma queue_pool_total pr os : Forall (fun o => is_matched o = true -> 0 <= o_paid o) os -> forall q, queue_pool_payments pr os q <> None.
Proof.
  induction 1 as [|o os H F IH]; intros q; cbn [queue_pool_payments]; [discriminate|]. destruct (o_kind o); try apply IH. destruct (is_matched o) eqn:M; [|apply IH].
  destruct (new_coins_one_ok (offer_denom_of pr (o_dir o)) (o_paid o) (H eq_refl)) as (r & ->). apply IH.
Qed.

(** Matched orders of one pool all go the same way. *)
Definition one_sided (os : list order) : Prop :=
  forall f g id, In f os -> In g os -> is_matched f = true -> is_matched g = true -> o_kind f = KPool id -> o_kind g = KPool id -> o_dir f = o_dir g.

Lemma apply_orders_total (Q : ctl) pr os : forall s q seen, inv Q s -> stage_of Q = STrade -> get_pair s (pr_id pr) = Some pr -> (forall d, 0 <= slack s (pr_id pr) d) ->
  Forall (filled_entry s (pr_id pr)) os -> NoDup (user_ids os) -> one_sided os ->
  (forall id d o, In (id, d) seen -> In o os -> is_matched o = true -> o_kind o = KPool id -> o_dir o = d) -> apply_orders pr os s q seen <> None.
Proof.
  induction os as [|o os IH]; intros s q seen I T Gp Sl F NU OS Se; cbn [apply_orders]; [discriminate|].
  inversion F as [|? ? F1 F2]; subst. unfold user_ids in NU. cbn [flat_map] in NU. fold (user_ids os) in NU.
  assert (OS' : one_sided os) by (intros f g id Hf Hg; apply OS; right; assumption).
  destruct (is_matched o) eqn:Mt.
  2:{ apply IH; auto; [unfold uid in NU; destruct (o_kind o); [exact NU|inversion NU; assumption|exact NU]|]. intros id d x Hs Hx. apply (Se id d x Hs). right. exact Hx. }
  destruct (F1 Mt) as (P0 & R0 & F1'). destruct (o_kind o) as [|id|id] eqn:K; [destruct F1'| |].
  - destruct F1' as (ko & G & L & Dr & Pm & Op & Ss). rewrite G.
    destruct (Z.ltb_spec (ko_remaining ko) (o_paid o)) as [|_]; [lia|].
    destruct (get_order_id _ _ _ _ (v_str _ _ I) G) as [Ei Eid].
    assert (Go : get_order s (ko_pair ko) (ko_id ko) = Some ko) by (rewrite Ei, Eid; exact G).
    match goal with |- (match ?e with Some x => _ | None => None end) <> None => destruct e as [s1|] eqn:Es end.
    2:{ exfalso. destruct (_ =? 0); [|discriminate Es]. revert Es. apply finish_order_succeeds; [exact L|cbn [ko_with_fill ko_pair]; rewrite Ei, Gp; discriminate|].
        cbn [ko_with_fill ko_pair ko_remaining ko_offer_denom]. pose proof (owed_covers s ko Q I Go L ltac:(rewrite Ei; apply Sl)). lia. }
    destruct (fill_step Q s ko o s1 I T Go L ltac:(lia) R0 Op ltac:(rewrite Dr; exact Ss) Es) as (M1 & S1 & G1 & O1 & L1).
    destruct (new_coins_one_ok (ko_demand_denom ko) (o_recv o) R0) as (cs & ->).
    unfold uid in NU. rewrite K in NU. cbn [app] in NU. apply NoDup_cons_iff in NU. destruct NU as [NU1 NU2].
    apply IH; [exact (inv_mics Q _ _ M1 I)|exact T|unfold get_pair; destruct S1 as (-> & _); exact Gp| | |exact NU2|exact OS'|].
    + intros d. rewrite L1. specialize (Sl d). unfold of_denom. destruct (pr_id pr =? ko_pair ko); [|lia]. destruct (denom_eqb d (ko_offer_denom ko)); lia.
    + eapply Forall_impl; [|apply Forall_and with (1 := F2); apply Forall_forall; intros x Hx; exact Hx]. intros x [Ex Hx] Mx. specialize (Ex Mx).
      destruct Ex as (X1 & X2 & X3). split; [assumption|]. split; [assumption|]. destruct (o_kind x) as [|id'|] eqn:Kx; auto. destruct X3 as (kx & Y1 & Y2). exists kx. split; [|assumption].
      unfold get_order in *. rewrite O1; [assumption|]. rewrite Ei, Eid. intros E0. injection E0 as E0. apply NU1. rewrite <- E0. unfold user_ids. apply in_flat_map. exists x. split; [assumption|].
      unfold uid. rewrite Kx. left. reflexivity.
    + intros j d x Hs Hx. apply (Se j d x Hs). right. exact Hx.
  - destruct (new_coins_one_ok (demand_denom_of pr (o_dir o)) (o_recv o) R0) as (cs & ->).
    destruct (existsb _ seen) eqn:Ee.
    { exfalso. apply existsb_exists in Ee. destruct Ee as ([j d] & Hin & E). cbn [fst snd] in E. apply andb_prop in E. destruct E as [E1 E2]. apply Z.eqb_eq in E1. subst j.
      pose proof (Se id d o Hin (or_introl eq_refl) Mt K) as X. subst d. destruct (o_dir o); discriminate E2. }
    apply IH; auto; [unfold uid in NU; rewrite K in NU; exact NU|].
    intros j d x [Hs|Hs] Hx Mx Kx; [|exact (Se j d x Hs (or_intror Hx) Mx Kx)]. injection Hs as <- <-. symmetry. apply (OS o x id); auto; [left; reflexivity|right; exact Hx].
Qed.

Definition of_id (id : Z) (o : order) : bool := match o_kind o with KPool j => j =? id | _ => false end.

Lemma apply_match_total (Q : ctl) s pr os qd : inv Q s -> stage_of Q = STrade -> get_pair s (pr_id pr) = Some pr -> (forall d, 0 <= slack s (pr_id pr) d) -> 0 <= qd ->
  Forall (filled_entry s (pr_id pr)) os -> NoDup (user_ids os) -> one_sided os ->
  (forall id d, paid_in pr (filter (of_id id) os) d <= bal (st_bank s) (PoolReserve id) d) ->
  (forall d, recv_in pr os d + of_denom d (pr_quote pr) qd <= slack s (pr_id pr) d + paid_in pr os d) ->
  apply_match s pr os qd <> None.
Proof.
  intros I T Gp Sl Q0 F NU OS Cov Tot. unfold apply_match.
  assert (Pn : Forall (fun o => is_matched o = true -> 0 <= o_paid o) os) by (eapply Forall_impl; [|exact F]; intros o Ho M; exact (proj1 (Ho M))).
  pose proof (queue_pool_total pr os Pn []) as X. destruct (queue_pool_payments pr os []) as [q1|] eqn:E1; [|congruence]. clear X.
  destruct (queue_pool_spec pr os [] q1 (Forall_nil _) E1) as (V1 & Fp & Qo1 & Qi1 & Qp1). specialize (Fp (Forall_nil _)).
  destruct (v_bank _ _ I) as [N _].
  destruct (proj2 (bulk_run_iff q1 (st_bank s) V1 ltac:(unfold one_way; intros e e' He He'; unfold from_pools in Fp; rewrite Forall_forall in Fp; destruct (Fp e He) as [(id & ->) _]; destruct (Fp e' He') as [_ ->]; discriminate) N)) as (b1 & E2).
  { intros a d. destruct (q_out q1 a d <=? bal (st_bank s) a d) eqn:Z; [apply Z.leb_le; exact Z|]. exfalso. apply Z.leb_gt in Z.
    assert (Np : forall a', (forall id, a' <> PoolReserve id) -> q_out q1 a' d = 0).
    { intros a' Na. unfold q_out. clear -Fp Na. induction Fp as [|e q [(id & X) _] Fp IH]; [reflexivity|]. cbn [map]. rewrite sumZ_cons, IH, X. unfold at_acc. destruct (addr_eqb_spec a' (PoolReserve id)) as [E|E]; [exfalso; exact (Na id E)|reflexivity]. }
    pose proof (N a d). destruct a; try (rewrite Np in Z by discriminate; lia). rewrite Qp1 in Z. unfold q_out in Z. cbn [map sumZ fold_right] in Z.
    match type of Z with context [PoolReserve ?i] => specialize (Cov i d) end. unfold of_id in Cov. unfold sumZ in Z. cbn in Z. lia. }
  rewrite E2. destruct (bulk_run_spec _ _ _ E2) as (_ & B1 & _).
  assert (M1 : mics Q s (set_bank s b1)).
  { apply (bulk_mics Q q1 T); [|assumption]. eapply Forall_impl; [|exact Fp]. intros e [(id & X) _]. rewrite X. exact Logic.I. }
  assert (A1 : forall d, slack (set_bank s b1) (pr_id pr) d = slack s (pr_id pr) d + paid_in pr (filter of_pool os) d).
  { intros d. unfold slack. change (orders_owed (set_bank s b1) (pr_id pr) d) with (orders_owed s (pr_id pr) d). cbn [st_bank set_bank]. rewrite B1, Qo1, Qi1, Z.eqb_refl. unfold q_out, q_in. cbn. lia. }
  assert (Pp : forall l d, (forall o, In o l -> In o os) -> 0 <= paid_in pr l d).
  { intros l d Hl. unfold paid_in. apply sumZ_nonneg. intros x Hx. apply in_map_iff in Hx. destruct Hx as (o & <- & Ho). rewrite Forall_forall in Pn. pose proof (Pn o (Hl o Ho)) as P. destruct (is_matched o); [|lia]. specialize (P eq_refl). unfold of_denom. destruct (denom_eqb _ _); lia. }
  pose proof (apply_orders_total Q pr os (set_bank s b1) [] [] (inv_mics Q _ _ M1 I) T Gp) as X.
  destruct (apply_orders pr os (set_bank s b1) [] []) as [[s2 q2]|] eqn:E3.
  2:{ exfalso. apply X; auto. - intros d. rewrite A1. specialize (Sl d). pose proof (Pp (filter of_pool os) d ltac:(intros o Ho; apply filter_In in Ho; apply Ho)). lia. - intros id d o []. }
  clear X. cbn [fst snd].
  destruct (apply_orders_spec Q pr os (set_bank s b1) [] [] s2 q2 (inv_mics Q _ _ M1 I) T Gp (Forall_nil _) F NU E3) as (M2 & R2 & V2 & Fe & L2 & Qo2 & Qi2 & O1 & O2).
  specialize (Fe (Forall_nil _)).
  destruct (new_coins_one_ok (pr_quote pr) qd Q0) as (dust & E4). rewrite E4. destruct (new_coins_one _ _ _ E4) as (_ & Vd & Ad & _).
  destruct (bulk_queue_spec q2 (PairEscrow (pr_id pr)) (pm_dust_collector (st_params s)) dust V2 Vd) as (V3 & Qo3 & Qi3).
  pose proof (bulk_queue_ends (fun f t => f = PairEscrow (pr_id pr)) q2 (PairEscrow (pr_id pr)) (pm_dust_collector (st_params s)) dust eq_refl Fe) as Fe3.
  match goal with |- context [bulk_run (st_bank s2) ?q] => pose proof (bulk_from q (pr_id pr) (st_bank s2) V3 Fe3) as Y; destruct (bulk_run (st_bank s2) q); [discriminate|] end.
  exfalso. apply Y; [|reflexivity]. intros d. rewrite Qo3, Qo2, Z.eqb_refl. unfold at_acc. cbn [addr_eqb]. rewrite Z.eqb_refl, Ad. unfold q_out. cbn [map]. change (sumZ []) with 0.
  pose proof (L2 (pr_id pr) d) as L3. rewrite Z.eqb_refl, A1 in L3. unfold slack at 1 in L3. specialize (Tot d).
  pose proof (sumZ_filter_split of_pool (fun o => if is_matched o then of_denom d (offer_denom_of pr (o_dir o)) (o_paid o) else 0) os) as Sp. fold (paid_in pr os d) in Sp. fold (paid_in pr (filter of_pool os) d) in Sp.
  fold (paid_in pr (filter (fun o => negb (of_pool o)) os) d) in Sp.
  assert (I2 : inv Q s2) by (exact (inv_mics Q _ _ M2 (inv_mics Q _ _ M1 I))).
  assert (Ow : 0 <= orders_owed s2 (pr_id pr) d).
  { unfold orders_owed, order_sum. apply sumZ_nonneg. intros x Hx. apply in_map_iff in Hx. destruct Hx as ([k v] & <- & Hin). cbn [snd]. destruct (live v && _ && _); [|lia].
    destruct (i_orders _ (v_str _ _ I2) _ _ (snap_current _ _ _ (i_orders_sorted _ (v_str _ _ I2)) Hin)) as (_ & pr0 & _ & Ok). destruct Ok as (_ & _ & _ & _ & _ & _ & _ & _ & R & _). lia. }
  unfold of_denom in Tot. lia.
Qed.

(** ** ExecuteMatching *)
Lemma supply_trade (Q : ctl) s s' : mics Q s s' -> str s -> stage_of Q = STrade -> forall d, supply (st_bank s') d = supply (st_bank s) d.
Proof.
  intros M. induction M as [|s1 s2 s3 M1 M IH]; intros S T d; [reflexivity|]. rewrite (IH (str_mic _ _ _ M1 S) T d). clear IH M.
  destruct M1; try congruence; norm_send; try reflexivity; try (eapply send_supply; eassumption).
  apply (finish_supply _ _ _ _ H2).
Qed.

Lemma collect_pools_nodup pr l : forall s s2 ps, (forall k p, get_pool s k = Some p -> pl_id p = k) -> NoDup (map (fun kv => snd (fst kv)) l) -> collect_pools l pr s = Some (s2, ps) ->
  NoDup (map fst ps) /\ forall i, In i (map fst ps) -> In i (map (fun kv => snd (fst kv)) l).
Proof.
  induction l as [|[k u] l IH]; intros s s2 ps Hid N H; cbn [collect_pools] in H; [injection H as <- <-; split; [constructor|intros i []]|].
  cbn [map fst snd] in N. apply NoDup_cons_iff in N. destruct N as [N1 N2].
  destruct (get_pool s (snd k)) as [p|] eqn:Ep; [|discriminate H].
  assert (W : forall s' ps', (forall k p, get_pool s' k = Some p -> pl_id p = k) -> collect_pools l pr s' = Some (s2, ps') -> NoDup (map fst ps') /\ forall i, In i (map fst ps') -> In i (map (fun kv => snd (fst kv)) ((k, u) :: l))).
  { intros s' ps' Hi' H'. destruct (IH s' s2 ps' Hi' N2 H') as [X Y]. split; [exact X|]. intros i Hi. right. apply Y. exact Hi. }
  destruct (pl_disabled p); [exact (W s ps Hid H)|].
  destruct (amm_pool _ _ _ _) as [ap| |]; try discriminate H. cbn [of_res] in H. destruct (is_depleted ap).
  - apply (W (mark_disabled s p) ps); [|exact H]. intros k' p' G. unfold mark_disabled, get_pool, put_pool in G. cbn [st_pools set_pools] in G. rewrite mget_mset in G. cbn [pl_id] in G.
    destruct (key_eqb_spec (k', 0) (pl_id p, 0)) as [E|E]; [injection G as <-; injection E as ->; reflexivity|]. apply Hid. exact G.
  - destruct (collect_pools l pr s) as [[s' ps']|] eqn:E; [|discriminate H]. cbn [fst snd] in H. injection H as <- <-.
    destruct (IH s s' ps' Hid N2 E) as [X Y]. cbn [map fst]. rewrite (Hid _ _ Ep). split.
    + constructor; [|exact X]. intros Z. apply N1. apply Y. exact Z.
    + intros i [<-|Hi]; [left; reflexivity|right; apply Y; exact Hi].
Qed.

(** What pools pay in a batch is covered by what they offered. *)
Lemma sum_ptrs_le (g : order -> Z) (h : heap) ps : NoDup ps -> (forall p, In p ps -> (p < length h)%nat) -> (forall o, In o h -> 0 <= g o) ->
  sumZ (map g (map (get h) ps)) <= sumZ (map g h).
Proof.
  intros N B Nn. set (inb := fun p => existsb (Nat.eqb p) ps).
  assert (Ib : forall p, inb p = true <-> In p ps).
  { intros p. unfold inb. rewrite existsb_exists. split; [intros (x & Hx & E); apply Nat.eqb_eq in E; subst; exact Hx|intros Hx; exists p; split; [exact Hx|apply Nat.eqb_refl]]. }
  assert (E : sumZ (map g (map (get h) ps)) = sumZ (map (fun p => g (get h p)) (filter inb (seq 0 (length h))))).
  { rewrite map_map. apply sumZ_perm. apply Permutation_map. apply NoDup_Permutation; [exact N|apply NoDup_filter, seq_NoDup|].
    intros p. rewrite filter_In, Ib, in_seq. split; [intros Hp; split; [pose proof (B p Hp); lia|exact Hp]|tauto]. }
  rewrite E. rewrite <- (map_get_seq h) at 2. rewrite map_map.
  pose proof (sumZ_filter_split inb (fun p => g (get h p)) (seq 0 (length h))) as S. rewrite S.
  assert (0 <= sumZ (map (fun p => g (get h p)) (filter (fun p => negb (inb p)) (seq 0 (length h))))).
  { apply sumZ_nonneg. intros x Hx. apply in_map_iff in Hx. destruct Hx as (p & <- & Hp). apply filter_In in Hp. destruct Hp as [Hp _]. apply in_seq in Hp. apply Nn. apply nth_In. lia. }
  lia.
Qed.

Lemma pool_paid_covered pr (h h2 : heap) ptrs id d : pr_base pr <> pr_quote pr -> NoDup ptrs -> (forall p, In p ptrs -> (p < length h)%nat) ->
  (forall o, In o h -> 0 <= o_offer o) ->
  (forall p, (p < length h)%nat -> o_kind (get h2 p) = o_kind (get h p) /\ o_dir (get h2 p) = o_dir (get h p) /\ 0 <= o_paid (get h2 p) <= o_offer (get h p)) ->
  paid_in pr (filter (of_id id) (map (get h2) ptrs)) d <= of_denom d (pr_quote pr) (offered_by id Buy h) + of_denom d (pr_base pr) (offered_by id Sell h).
Proof.
  intros Nb N B On F.
  set (w := fun o => if of_id id o then of_denom d (offer_denom_of pr (o_dir o)) (o_offer o) else 0).
  assert (L1 : paid_in pr (filter (of_id id) (map (get h2) ptrs)) d <= sumZ (map w (map (get h) ptrs))).
  { unfold paid_in. clear N. induction ptrs as [|p ps IH]; [cbn; lia|]. cbn [map filter]. rewrite sumZ_cons.
    assert (IH' := IH ltac:(intros q Hq; apply B; right; exact Hq)). clear IH.
    destruct (F p (B p (or_introl eq_refl))) as (K & D & P). unfold w at 1. unfold of_id at 1 2. unfold of_id in *. rewrite K.
    destruct (o_kind (get h p)) as [|a|a]; [lia|lia|]. destruct (a =? id); [|lia]. cbn [map]. rewrite sumZ_cons.
    cut ((if is_matched (get h2 p) then of_denom d (offer_denom_of pr (o_dir (get h2 p))) (o_paid (get h2 p)) else 0) <= of_denom d (offer_denom_of pr (o_dir (get h p))) (o_offer (get h p))); [lia|].
    rewrite D. unfold of_denom. destruct (denom_eqb _ _), (is_matched _); lia. }
  assert (Wn : forall o, In o h -> 0 <= w o) by (intros o Ho; unfold w, of_denom; specialize (On o Ho); destruct (of_id id o); [destruct (denom_eqb _ _); lia|lia]).
  pose proof (sum_ptrs_le w h ptrs N B Wn) as L2.
  assert (L3 : sumZ (map w h) <= of_denom d (pr_quote pr) (offered_by id Buy h) + of_denom d (pr_base pr) (offered_by id Sell h)); [|lia].
  clear -On Nb. subst w. induction h as [|o h IH]; [unfold offered_by, of_denom; cbn; destruct (denom_eqb _ _), (denom_eqb _ _); cbn; lia|].
  specialize (IH ltac:(intros x Hx; apply On; right; exact Hx)). cbn [map]. rewrite sumZ_cons. pose proof (On o (or_introl eq_refl)) as O.
  replace (offered_by id Buy (o :: h)) with (offered_by id Buy h + if by_pool id Buy o then o_offer o else 0) by (unfold offered_by; cbn [filter]; destruct (by_pool id Buy o); cbn [map]; rewrite ?sumZ_cons; lia).
  replace (offered_by id Sell (o :: h)) with (offered_by id Sell h + if by_pool id Sell o then o_offer o else 0) by (unfold offered_by; cbn [filter]; destruct (by_pool id Sell o); cbn [map]; rewrite ?sumZ_cons; lia).
  unfold by_pool, of_id in *. unfold of_denom in *. destruct (o_kind o) as [|a|a]; cbn [andb]; rewrite ?Z.add_0_r; try lia. destruct (a =? id); cbn [andb]; [|rewrite ?Z.add_0_r; lia].
  destruct (o_dir o); cbn [dir_eqb offer_denom_of]; destruct (denom_eqb d (pr_quote pr)), (denom_eqb d (pr_base pr)); lia.
Qed.

(** Nobody trades across, on the heap. *)
Lemma outcome_no_cross iter h h' mp qd i j : is_perm_iter iter -> Forall wf_order h -> match_outcome iter h h' mp qd ->
  (forall o, In o h -> o_dir o = Sell -> P18 <= o_price o) -> In i (flat_map snd (buys (new_order_book h))) -> In j (flat_map snd (sells (new_order_book h))) ->
  changed h h' i -> changed h h' j -> o_price (get h j) <= o_price (get h i).
Proof.
  intros Hi Hw Ho Ab Li Lj Ci Cj. apply wf_heap_Forall in Hw. destruct (book_side_wf h Hw) as [HB HS]. destruct Ho as [last L0 E|Hm E].
  - apply (match_book_cross iter Hi h (new_order_book h) last h' mp qd true Hw L0); try assumption.
    right. intros [x ps] Ht. destruct (new_book_contents h) as [_ (_ & _ & _ & S)].
    destruct (S x ps Ht) as (Ne & _ & S'). destruct ps as [|q ps]; [exfalso; apply Ne; reflexivity|]. destruct (proj1 (S' q) (or_introl eq_refl)) as [(X & Y & _) <-].
    apply (Ab (get h q)); [apply nth_In; exact X|exact Y].
  - destruct (match_single_cross iter Hi h (new_order_book h) mp h' qd Hw Hm HB HS E) as (A & B & _). specialize (A i Li Ci). specialize (B j Lj Cj). lia.
Qed.

Lemma outcome_one_sided iter h h' mp qd ps : is_perm_iter iter -> Forall fresh_order h -> match_outcome iter h h' mp qd ->
  (forall o, In o h -> o_dir o = Sell -> P18 <= o_price o) ->
  (forall o id, In o h -> o_kind o = KPool id -> In id (map fst ps)) -> (forall ip, In ip ps -> pool_fair ip h) ->
  one_sided (map (get h') (book_orders (new_order_book h))).
Proof.
  intros Hi Hf Ho Ab Kp Fr. assert (Hw : Forall wf_order h) by (eapply Forall_impl; [|exact Hf]; exact fresh_wf).
  destruct (match_outcome_orders _ _ _ _ _ Hi Hw Ho) as (Ln & Wf' & Fb). destruct (book_ptrs h) as [Nd Rg].
  assert (Key : forall p q id, In p (book_orders (new_order_book h)) -> In q (book_orders (new_order_book h)) -> is_matched (get h' p) = true -> is_matched (get h' q) = true ->
    o_kind (get h' p) = KPool id -> o_kind (get h' q) = KPool id -> o_dir (get h' p) = Buy -> o_dir (get h' q) = Sell -> False).
  { intros p q id Hp Hq Mp Mq Kp1 Kq1 Dp Dq. pose proof (Rg p Hp) as Rp. pose proof (Rg q Hq) as Rq.
    destruct (Fb p Rp) as (fp & Xp). destruct (Fb q Rq) as (fq & Xq).
    destruct Xp as (_ & X1 & X2 & X3 & _ & _ & X4 & _). destruct Xq as (_ & Y1 & Y2 & Y3 & _ & _ & Y4 & _).
    assert (Ip : In (get h p) h) by (apply nth_In; exact Rp). assert (Iq : In (get h q) h) by (apply nth_In; exact Rq).
    rewrite Forall_forall in Hf. destruct (Hf _ Ip) as (_ & _ & Op & _). destruct (Hf _ Iq) as (_ & _ & Oq & _).
    assert (Cp : changed h h' p) by (intros E; unfold is_matched in Mp; rewrite E, Op, Z.ltb_irrefl in Mp; discriminate Mp).
    assert (Cq : changed h h' q) by (intros E; unfold is_matched in Mq; rewrite E, Oq, Z.ltb_irrefl in Mq; discriminate Mq).
    rewrite X1 in Dp. rewrite Y1 in Dq. rewrite X4 in Kp1. rewrite Y4 in Kq1.
    destruct (new_book_contents h) as [(_ & _ & B & _) (_ & _ & S & _)].
    assert (Lp : In p (flat_map snd (buys (new_order_book h)))).
    { unfold book_orders in Hp. rewrite flat_map_app in Hp. apply in_app_iff in Hp. destruct Hp as [Hp|Hp]; [exact Hp|]. pose proof (proj1 (S _) Hp) as (_ & Y & _). rewrite Y in Dp. discriminate Dp. }
    assert (Lq : In q (flat_map snd (sells (new_order_book h)))).
    { unfold book_orders in Hq. rewrite flat_map_app in Hq. apply in_app_iff in Hq. destruct Hq as [Hq|Hq]; [|exact Hq]. pose proof (proj1 (B _) Hq) as (_ & Y & _). rewrite Y in Dq. discriminate Dq. }
    pose proof (outcome_no_cross iter h h' mp qd p q Hi Hw Ho Ab Lp Lq Cp Cq) as Le.
    pose proof (Kp _ _ Ip Kp1) as Hin. apply in_map_iff in Hin. destruct Hin as (ip & Eip & Hin). destruct (Fr ip Hin) as (_ & _ & Lt).
    specialize (Lt (get h p) (get h q) Ip Iq). rewrite Eip in Lt. unfold by_pool in Lt. rewrite Kp1, Kq1, Dp, Dq, !Z.eqb_refl in Lt. specialize (Lt eq_refl eq_refl). lia. }
  intros f g id Hf1 Hg1 Mf Mg Kf Kg. apply in_map_iff in Hf1. destruct Hf1 as (p & <- & Hp). apply in_map_iff in Hg1. destruct Hg1 as (q & <- & Hq).
  destruct (o_dir (get h' p)) eqn:Dp, (o_dir (get h' q)) eqn:Dq; try reflexivity; exfalso; [exact (Key p q id Hp Hq Mf Mg Kf Kg Dp Dq)|exact (Key q p id Hq Hp Mg Mf Kg Kf Dq Dp)].
Qed.

Lemma nodup_map_in {A B} (f : A -> B) l : (forall x y, In x l -> In y l -> f x = f y -> x = y) -> NoDup l -> NoDup (map f l).
Proof.
  induction l as [|a l IH]; intros Inj N; [constructor|]. apply NoDup_cons_iff in N. destruct N as [N1 N2]. cbn [map]. constructor.
  - intros X. apply in_map_iff in X. destruct X as (y & E & Hy). apply N1. rewrite (Inj a y (or_introl eq_refl) (or_intror Hy) (eq_sym E)). exact Hy.
  - apply IH; [|exact N2]. intros x y Hx Hy. apply Inj; right; assumption.
Qed.

Definition bounded_supply (s : state) : Prop := forall d, supply (st_bank s) d < 2 ^ 196.

Lemma execute_matching_total (Q : ctl) iter pr s : is_perm_iter iter -> inv Q s -> (forall p, Q p -> sane_ratio p) -> stage_of Q = STrade -> get_pair s (pr_id pr) = Some pr ->
  pm_tick_prec (st_params s) <= 18 -> (forall d, 0 <= slack s (pr_id pr) d) -> sells_above_one s (pr_id pr) -> basic_only s -> has_limits (st_params s) (pr_last_price pr) -> bounded_supply s ->
  execute_matching iter pr s <> None.
Proof.
  intros Hi I HQ T Gp H18 Sl Ab Bo HL Bs. unfold execute_matching.
  assert (Pre : NoDup (map fst (mprefix (st_orders s) (pr_id pr)))) by (apply msorted_NoDup, msorted_filter, (i_orders_sorted _ (v_str _ _ I))).
  assert (Cur : forall k o, In (k, o) (mprefix (st_orders s) (pr_id pr)) -> mget (st_orders s) k = Some o /\ fst k = pr_id pr).
  { intros k o X. apply mprefix_In in X. destruct X as [X Y]. split; [apply snap_current; [apply (i_orders_sorted _ (v_str _ _ I))|assumption]|exact Y]. }
  destruct (collect_orders (mprefix (st_orders s) (pr_id pr)) s []) as [[s1 h]|] eqn:E1.
  2:{ exfalso. refine (collect_orders_total (mkCtl (allowed Q) SReq) (pr_id pr) _ (or_intror eq_refl) _ s [] (proj1 (inv_ctl Q SReq s) I) _ Pre Cur Sl E1); [discriminate|rewrite Gp; discriminate]. }
  cbn [fst snd].
  assert (C1 : forall b, b = STrade \/ b = SReq -> _) by (intros b Hb; exact (collect_orders_spec (mkCtl (allowed Q) b) (pr_id pr) _ Hb s [] s1 h (proj1 (inv_ctl Q b s) I) Pre Cur (Forall_nil _) (NoDup_nil _) (fun _ _ _ X => X) E1)).
  destruct (C1 STrade (or_introl eq_refl)) as (M1 & R1 & En & NU & _ & O1 & Off).
  pose proof (inv_mics _ _ _ M1 (proj1 (inv_ctl Q STrade s) I)) as I1. destruct R1 as (R11 & R12 & R13 & R14 & R15 & R16 & R17 & R18).
  assert (Bo1 : basic_only s1) by (intros k p G; apply (Bo k p); unfold get_pool in *; rewrite <- R12; exact G).
  assert (Ex1 : forall kv, In kv (mprefix (st_plidx s1) (pr_id pr)) -> get_pool s1 (snd (fst kv)) <> None).
  { intros [[x y] u] Hkv. apply mprefix_In in Hkv. destruct Hkv as [Hkv Ex]. cbn in Ex. subst x. apply (snap_current _ _ _ (i_plidx_sorted _ (v_str _ _ I1))) in Hkv. destruct u.
    destruct (i_plidx _ (v_str _ _ I1) _ _ Hkv) as (p0 & G0 & _). cbn [fst snd]. rewrite G0. discriminate. }
  destruct (collect_pools_total (mkCtl (allowed Q) STrade) pr _ (or_introl eq_refl) s1 I1 Bo1 Ex1) as (ss & ps & E2 & Bo2 & Sh). rewrite E2. cbn [fst snd].
  assert (C2 : forall b, b = STrade \/ b = SReq -> _) by (intros b Hb; exact (collect_pools_spec (mkCtl (allowed Q) b) pr _ Hb s1 ss ps (inv_mics _ _ _ (proj1 (C1 b Hb)) (proj1 (inv_ctl Q b s) I)) E2)).
  destruct (C2 STrade (or_introl eq_refl)) as (M2 & R2 & Sp & Pb).
  assert (MS : forall b, b = STrade \/ b = SReq -> mics (mkCtl (allowed Q) b) s ss) by (intros b Hb; exact (mics_trans _ _ _ _ (proj1 (C1 b Hb)) (proj1 (C2 b Hb)))).
  assert (MQ : mics Q s ss) by (destruct Q as [al tr]; exact (MS tr (or_introl T))).
  clear C1 C2 M1 M2. pose proof (inv_mics Q _ _ MQ I) as Is.
  unfold same_but_pools in R2.
  assert (Ess : st_pairs ss = st_pairs s /\ st_params ss = st_params s /\ st_orders ss = st_orders s1 /\ st_bank ss = st_bank s1) by (rewrite R2; cbn; auto).
  destruct Ess as (X1 & X2 & X7 & X8).
  assert (En2 : Forall (entry ss (pr_id pr)) h).
  { eapply Forall_impl; [|exact En]. intros o Ho. eapply entry_frame; [exact Ho|]. intros id _. unfold get_order. rewrite X7. reflexivity. }
  assert (Fh : Forall fresh_order h) by (eapply Forall_impl; [|exact En2]; intros o Ho; apply Ho).
  assert (Fu : users_only h) by (eapply Forall_impl; [|exact En2]; intros o (_ & id & ko & K & _); exists id; exact K).
  assert (Gss : get_pair ss (pr_id pr) = Some pr) by (unfold get_pair; rewrite X1; exact Gp).
  assert (Sls : forall d, 0 <= slack ss (pr_id pr) d).
  { intros d. specialize (Sl d). pose proof (slack_mics (mkCtl (allowed Q) SReq) s ss (pr_id pr) d (MS SReq (or_intror eq_refl)) (proj1 (inv_ctl Q SReq s) I) ltac:(discriminate)). lia. }
  assert (Gid1 : forall k p, get_pool s1 k = Some p -> pl_id p = k) by (intros k p G; eapply get_pool_id; [exact (v_str _ _ I1)|exact G]).
  assert (Np : NoDup (map fst ps)).
  { refine (proj1 (collect_pools_nodup pr _ s1 ss ps Gid1 _ E2)).
    assert (Nk : NoDup (map fst (mprefix (st_plidx s1) (pr_id pr)))) by (apply msorted_NoDup, msorted_filter, (i_plidx_sorted _ (v_str _ _ I1))).
    rewrite <- (map_map fst snd). apply nodup_map_in; [|exact Nk].
    intros x y Hx Hy E. apply in_map_iff in Hx. destruct Hx as (kx & <- & Hx). apply in_map_iff in Hy. destruct Hy as (ky & <- & Hy).
    destruct kx as [[x1 x2] ux], ky as [[y1 y2] uy]. apply mprefix_In in Hx. apply mprefix_In in Hy. cbn in *. destruct Hx as [_ ->], Hy as [_ ->]. congruence. }
  pose proof (supply_trade Q s ss MQ (v_str _ _ I) T) as Sup.
  assert (Fp : Forall fine_pool ps).
  { apply Forall_forall. intros ip Hip. rewrite Forall_forall in Sh, Pb. destruct (Sh ip Hip) as (rx & ry & psu & E & Hx & Hy). destruct (Pb ip Hip) as (_ & Px & Py).
    exists rx, ry, psu. split; [exact E|]. rewrite E in Px, Py. cbn [p_rx p_ry] in Px, Py. rewrite <- X8 in Px, Py.
    pose proof (conserved_le _ (PoolReserve (fst ip)) (pr_quote pr) (v_bank _ _ Is)). pose proof (conserved_le _ (PoolReserve (fst ip)) (pr_base pr) (v_bank _ _ Is)).
    rewrite Sup in *. pose proof (Bs (pr_quote pr)). pose proof (Bs (pr_base pr)). lia. }
  destruct (v_params _ _ I) as [Vp Qp]. unfold valid_params in Vp. rewrite !andb_true_iff in Vp.
  assert (Hprec : 0 <= pm_tick_prec (st_params s)) by lia. assert (Hrat : 0 <= pm_price_ratio (st_params s) < P18) by (split; [lia|apply HQ; assumption]). clear Vp.
  destruct (kmatch_total iter (st_params s) h ps (pr_last_price pr) Hi (conj Hprec H18) Hrat Fh Fu Fp Np HL) as (h1 & r & E3 & Fair). rewrite E3. cbn [fst snd].
  destruct r as [[[h2 mp] qd]|]; [|discriminate].
  destruct (i_pairs _ (v_str _ _ I) _ _ Gp) as (_ & _ & Nbq & _ & _ & Lp & _).
  destruct (kmatch_facts iter (st_params s) h ps (pr_last_price pr) h1 _ Hprec Hrat Fh Sp Lp E3) as (po & Eh1 & Fpo & Out & Flo).
  specialize (Out h2 mp qd eq_refl).
  assert (F1 : Forall fresh_order h1) by (rewrite Eh1; apply Forall_app; split; [assumption|eapply Forall_impl; [|exact Fpo]; intros o Ho; apply Ho]).
  assert (W1 : Forall wf_order h1) by (eapply Forall_impl; [|exact F1]; exact fresh_wf).
  destruct (match_outcome_orders _ _ _ _ _ Hi W1 Out) as (Ln & W2 & Fb). destruct (book_ptrs h1) as [Nd Rg].
  assert (U1 : user_ids h1 = user_ids h).
  { rewrite Eh1, user_ids_app. replace (user_ids po) with (@nil Z); [apply app_nil_r|]. clear -Fpo. induction Fpo as [|o po (_ & i & K & _) _ IH]; [reflexivity|].
    unfold user_ids. cbn [flat_map]. unfold uid at 1. rewrite K. exact IH. }
  set (os := map (get h2) (book_orders (new_order_book h1))) in *.
  assert (NUo : NoDup (user_ids os)).
  { apply (user_ids_sub h2 _ h1); auto; [|rewrite U1; assumption]. intros p Hp. destruct (Fb p (Rg p Hp)) as (fs & X). apply X. }
  assert (Fo : Forall (filled_entry ss (pr_id pr)) os).
  { apply Forall_forall. intros o Ho. apply in_map_iff in Ho. destruct Ho as (p & <- & Hp). destruct (Fb p (Rg p Hp)) as (fs & X). pose proof (Rg p Hp) as Rp.
    assert (In1 : In (get h1 p) h1) by (apply nth_In; assumption).
    assert (W : wf_order (get h2 p)) by (rewrite Forall_forall in W2; apply W2; apply nth_In; lia).
    assert (In2 : In (get h1 p) (h ++ po)) by (rewrite <- Eh1; exact In1). clear In1. rename In2 into In1. apply in_app_iff in In1. destruct In1 as [In1|In1].
    - rewrite Forall_forall in En2. exact (entry_filled _ _ _ _ _ (En2 _ In1) X W).
    - rewrite Forall_forall in Fpo. destruct (Fpo _ In1) as (_ & i & K & _). intros M. destruct W as (_ & Wa & Wb & Wc & _). split; [lia|]. split; [lia|].
      destruct X as (_ & _ & _ & _ & _ & _ & X & _). rewrite X, K. exact Logic.I. }
  (* no order sells below price one *)
  assert (Abv : forall o, In o h1 -> o_dir o = Sell -> P18 <= o_price o).
  { destruct Ab as (Us & Pl). intros o Ho Do. rewrite Eh1 in Ho. apply in_app_iff in Ho. destruct Ho as [Ho|Ho].
    - rewrite Forall_forall in En2. destruct (En2 o Ho) as (_ & id & ko & K & G & L & Dk & _ & _ & Pk & _).
      destruct (batch_live (mkCtl (allowed Q) STrade) s ss (pr_id pr) id ko (or_introl eq_refl) (proj1 (inv_ctl Q STrade s) I) (MS STrade (or_introl eq_refl)) G L) as (o0 & G0 & Lo & Do0 & Po).
      rewrite Pk, <- Po. apply (Us id o0 G0 Lo). congruence.
    - destruct Pl as [Npl|Lim].
      + exfalso. rewrite Forall_forall in Fpo. destruct (Fpo o Ho) as (_ & a & _ & Ia). apply in_map_iff in Ia. destruct Ia as ([a' ap] & Ea & Ia). cbn in Ea. subst a'.
        pose proof (collect_pools_active _ _ _ _ _ Gid1 E2) as X. rewrite Forall_forall in X. destruct (X _ Ia) as (Y & p & G & Dp). cbn [fst] in *.
        apply in_map_iff in Y. destruct Y as ([[x y] u] & Ey & Y). cbn in Ey. subst y. apply mprefix_In in Y. destruct Y as [Y Exx]. cbn in Exx. subst x. rewrite R13 in Y.
        apply (snap_current _ _ _ (i_plidx_sorted _ (v_str _ _ I))) in Y. destruct u. destruct (i_plidx _ (v_str _ _ I) _ _ Y) as (p0 & G0 & Pp).
        unfold get_pool in G, G0. rewrite R12 in G. assert (p0 = p) as -> by congruence. rewrite (Npl a p G0 ltac:(congruence)) in Dp. discriminate Dp.
      + destruct (Lim pr Gp) as (last & lo & hi & El & Ell & Hlo). pose proof (Flo last lo hi El Ell) as X. rewrite Forall_forall in X. specialize (X o Ho Do). lia. }
  assert (OS : one_sided os).
  { apply (outcome_one_sided iter h1 h2 mp qd ps Hi F1 Out Abv); [|exact Fair]. intros o id Ho K. rewrite Eh1 in Ho. apply in_app_iff in Ho. destruct Ho as [Ho|Ho].
    - unfold users_only in Fu. rewrite Forall_forall in Fu. destruct (Fu o Ho) as (i & K'). congruence.
    - rewrite Forall_forall in Fpo. destruct (Fpo o Ho) as (_ & a & K' & Ia). congruence. }
  destruct (outcome_totals iter h1 h2 mp qd pr Hi F1 Out Nbq) as (Y1 & Y2 & Y3 & Y4 & Y5). fold os in Y1, Y2, Y3, Y4, Y5.
  destruct (match_outcome_totals _ _ _ _ _ Hi W1 Out) as (Tq & Q0 & _ & Tb). specialize (Tb Abv).
  destruct (apply_match ss pr os qd) as [s3|] eqn:E4; [discriminate|]. exfalso. revert E4.
  apply (apply_match_total Q ss pr os qd Is T Gss Sls Q0 Fo NUo OS).
  - intros id d.
    assert (Cv : paid_in pr (filter (of_id id) os) d <= of_denom d (pr_quote pr) (offered_by id Buy h1) + of_denom d (pr_base pr) (offered_by id Sell h1)).
    { apply pool_paid_covered; auto.
      - intros o Ho. rewrite Forall_forall in F1. destruct (F1 o Ho) as (_ & _ & _ & O & _). exact O.
      - intros p Hp. destruct (Fb p Hp) as (fs & X). assert (W : wf_order (get h2 p)) by (rewrite Forall_forall in W2; apply W2; apply nth_In; lia).
        destruct X as (_ & A1 & A2 & A3 & A4 & A5 & A6 & _). destruct W as (_ & _ & Wb & _). rewrite A4 in Wb. auto. }
    destruct (v_bank _ _ Is) as [Nn _].
    destruct (in_dec Z.eq_dec id (map fst ps)) as [Hin|Hout].
    + apply in_map_iff in Hin. destruct Hin as (ip & <- & Hin). destruct (Fair ip Hin) as (O1' & O2' & _). rewrite Forall_forall in Pb. destruct (Pb ip Hin) as (_ & Px & Py). rewrite <- X8 in Px, Py. rewrite Px in O1'. rewrite Py in O2'.
      unfold of_denom in Cv. pose proof (Nn (PoolReserve (fst ip)) d). destruct (denom_eqb_spec d (pr_quote pr)) as [->|Nq].
      * destruct (denom_eqb_spec (pr_quote pr) (pr_base pr)) as [E|_]; [exfalso; apply Nbq; symmetry; exact E|]. lia.
      * destruct (denom_eqb_spec d (pr_base pr)) as [->|Nb]; lia.
    + assert (Zr : forall e, offered_by id e h1 = 0).
      { intros e. apply offered_none. rewrite Eh1. apply Forall_app. split; apply Forall_forall; intros o Ho; unfold by_pool.
        - unfold users_only in Fu. rewrite Forall_forall in Fu. destruct (Fu o Ho) as (i & ->). reflexivity.
        - rewrite Forall_forall in Fpo. destruct (Fpo o Ho) as (_ & a & -> & Ia). destruct (Z.eqb_spec a id) as [->|]; [exfalso; exact (Hout Ia)|reflexivity]. }
      rewrite !Zr in Cv. unfold of_denom in Cv. pose proof (Nn (PoolReserve id) d). destruct (denom_eqb _ _), (denom_eqb _ _); lia.
  - intros d. specialize (Sls d). destruct (denom_eqb_spec d (pr_quote pr)) as [->|Nq].
    + rewrite Y1, Y3. unfold of_denom. rewrite denom_eqb_refl. lia.
    + assert (of_denom d (pr_quote pr) qd = 0) as -> by (unfold of_denom; destruct (denom_eqb_spec d (pr_quote pr)); [contradiction|reflexivity]).
      destruct (denom_eqb_spec d (pr_base pr)) as [->|Nb]; [rewrite Y2, Y4; lia|]. destruct (Y5 d Nq Nb) as [-> ->]. lia.
Qed.
