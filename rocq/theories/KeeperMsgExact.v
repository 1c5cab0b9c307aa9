(** Exact acceptance and effect of the messages that create pairs and pools and queue requests. *)
From Verif Require Import Base Dec DecProofs TickModel TickSpec TickProofs OrderModel MatchModel PoolModel PoolProofs PoolOrderProofs SqrtProofs RangeProofs RangeCreate KeeperModel KeeperLib KeeperSpec KeeperMicro KeeperBank KeeperSteps KeeperReqs KeeperOrders KeeperBulk KeeperTrade KeeperInv KeeperHist KeeperMsgs KeeperPools MatchProofs MsgSpec.

Lemma key1 a b : key_eqb (a, 0) (b, 0) = (a =? b).
Proof. unfold key_eqb. cbn [fst snd]. rewrite Z.eqb_refl, andb_true_r. reflexivity. Qed.
Lemma key2 a b c d : key_eqb (a, b) (c, d) = (a =? c) && (b =? d).
Proof. reflexivity. Qed.

(** ** Sending *)
Lemma st_send_iff s from to cs : (forall a d, 0 <= bal (st_bank s) a d) -> valid_coins cs = true ->
  (st_send s from to cs <> None <-> holds s from cs).
Proof.
  intros N V. unfold st_send. split.
  - intros H d. destruct (send _ _ _ _) as [b|] eqn:E; [|congruence]. destruct (send_spec _ _ _ _ _ E) as (_ & _ & P). specialize (P d). pose proof (valid_amount_nonneg cs d V). pose proof (N from d).
    destruct (Z_lt_le_dec 0 (amount_of cs d)); [auto|lia].
  - intros H. destruct (send_ok (st_bank s) from to cs V (fun d _ => H d)) as (b & ->). discriminate.
Qed.
Lemma st_send_paid s from to cs s' : st_send s from to cs = Some s' -> exists b, s' = set_bank s b /\ send (st_bank s) from to cs = Some b /\ valid_coins cs = true /\
  (forall a d, bal b a d = bal (st_bank s) a d + paid from to cs a d) /\ (forall d, supply b d = supply (st_bank s) d).
Proof.
  intros H. apply st_send_spec in H. destruct H as (b & -> & H). exists b. destruct (send_spec _ _ _ _ _ H) as (V & (M1 & M2) & _). split; [reflexivity|]. split; [exact H|]. split; [exact V|]. split; [|exact M2].
  intros a d. rewrite M1. unfold paid, at_acc. lia.
Qed.
Lemma okp_nonneg Q s : okp Q s -> forall a d, 0 <= bal (st_bank s) a d.
Proof. intros I. apply (proj1 (v_bank _ _ I)). Qed.
Lemma okp_params Q s : okp Q s -> 0 <= pm_tick_prec (st_params s) /\ 0 < pm_min_supply (st_params s) /\ valid_coins (pm_pair_fee (st_params s)) = true /\ valid_coins (pm_pool_fee (st_params s)) = true.
Proof. intros I. destruct (v_params _ _ I) as [V _]. unfold valid_params in V. rewrite !andb_true_iff in V. lia. Qed.

(** ** Pairs *)
Lemma create_pair_iff Q s u base quote : okp Q s ->
  (deliver s (MCreatePair u base quote) <> None <-> base <> quote /\ no_such_pair s base quote /\ holds s (User u) (pm_pair_fee (st_params s))).
Proof.
  intros I. pose proof (v_str _ _ I) as S. unfold deliver. cbn [validate_basic handle].
  destruct (denom_eqb_spec base quote) as [E|N]; cbn [negb].
  { split; [congruence|]. intros (X & _). congruence. }
  unfold create_pair.
  assert (X : match st_pidx s base quote with Some i => is_some (get_pair s i) | None => false end = false <-> no_such_pair s base quote).
  { split.
    - intros H i p G (<- & <-). destruct (i_pairs _ S _ _ G) as (Ek & _ & _ & _ & _ & _ & D). injection Ek as Ek. subst i. rewrite D, G in H. discriminate H.
    - intros H. destruct (st_pidx s base quote) as [i|] eqn:D; [|reflexivity]. destruct (i_pidx _ S _ _ _ D) as (p & G & Eb & Eq). exfalso. exact (H i p G (conj Eb Eq)). }
  destruct (match st_pidx s base quote with Some _ => _ | None => _ end) eqn:D.
  { split; [congruence|]. intros (_ & H & _). apply X in H. discriminate H. }
  pose proof (st_send_iff s (User u) (pm_fee_collector (st_params s)) (pm_pair_fee (st_params s)) (okp_nonneg Q s I) (proj1 (proj2 (proj2 (okp_params Q s I))))) as F.
  split.
  - intros H. split; [exact N|]. split; [apply X; reflexivity|]. apply F. destruct (st_send _ _ _ _); congruence.
  - intros (_ & _ & H). apply F in H. destruct (st_send _ _ _ _); [discriminate|congruence].
Qed.
Lemma create_pair_effect Q s u base quote s' : okp Q s -> deliver s (MCreatePair u base quote) = Some s' -> pair_created s s' u base quote.
Proof.
  intros I H. pose proof (v_str _ _ I) as S. unfold deliver in H. cbn [validate_basic handle] in H. destruct (negb _); [|discriminate H].
  unfold create_pair in H. destruct (match st_pidx s base quote with Some _ => _ | None => _ end); [discriminate H|].
  destruct (st_send _ _ _ _) as [s1|] eqn:E; [|discriminate H]. destruct (st_send_paid _ _ _ _ _ E) as (b & -> & _ & _ & B1 & B2). clear E. cbn zeta in H. injection H as <-.
  unfold pair_created. cbn zeta. split.
  { destruct (get_pair s (st_last_pair s + 1)) as [p|] eqn:G; [|reflexivity]. exfalso. destruct (i_pairs _ S _ _ G) as (Ek & X & _). injection Ek as Ek. lia. }
  split.
  { intros i. unfold get_pair. cbn [st_pairs set_pidx put_pair set_pairs set_last_pair set_bank pr_id]. rewrite mget_mset, key1. reflexivity. }
  split; [exact B1|]. split; [exact B2|]. repeat (split; [reflexivity|]). reflexivity.
Qed.

(** ** Coins of a pair *)
Lemma both_coins_facts pr cs x y : pr_base pr <> pr_quote pr -> both_coins pr cs x y -> 0 < x -> 0 < y ->
  valid_coins cs = true /\ length cs = 2%nat /\ (forall c, In c cs -> in_pair pr (fst c) = true /\ (snd c = x \/ snd c = y)) /\ (In (pr_quote pr, x) cs /\ In (pr_base pr, y) cs) /\
  (forall d, amount_of cs d = of_denom d (pr_quote pr) x + of_denom d (pr_base pr) y) /\ amount_of cs (pr_quote pr) = x /\ amount_of cs (pr_base pr) = y.
Proof.
  intros N H Hx Hy. assert (F1 : denom_eqb (pr_quote pr) (pr_base pr) = false) by (destruct (denom_eqb_spec (pr_quote pr) (pr_base pr)); congruence).
  assert (F2 : denom_eqb (pr_base pr) (pr_quote pr) = false) by (destruct (denom_eqb_spec (pr_base pr) (pr_quote pr)); congruence).
  assert (R1 : denom_eqb (pr_base pr) (pr_base pr) = true) by (destruct (denom_eqb_spec (pr_base pr) (pr_base pr)); congruence).
  assert (R2 : denom_eqb (pr_quote pr) (pr_quote pr) = true) by (destruct (denom_eqb_spec (pr_quote pr) (pr_quote pr)); congruence).
  assert (Px : (0 <? x) = true) by lia. assert (Py : (0 <? y) = true) by lia.
  destruct H as [-> | ->]; cbn [valid_coins has_denom existsb fst snd amount_of length]; rewrite ?F1, ?F2, ?R1, ?R2, Px, Py; cbn [negb andb orb].
  - split; [reflexivity|]. split; [reflexivity|]. split; [|split; [split; [left; reflexivity|right; left; reflexivity]|split; [|split; reflexivity]]].
    + intros c [<-|[<-|[]]]; cbn [fst snd]; unfold in_pair; rewrite ?R1, ?R2, ?orb_true_r; auto.
    + intros d. unfold of_denom. destruct (denom_eqb_spec d (pr_quote pr)) as [->|]; [rewrite F1; lia|]. destruct (denom_eqb d (pr_base pr)); lia.
  - split; [reflexivity|]. split; [reflexivity|]. split; [|split; [split; [right; left; reflexivity|left; reflexivity]|split; [|split; reflexivity]]].
    + intros c [<-|[<-|[]]]; cbn [fst snd]; unfold in_pair; rewrite ?R1, ?R2, ?orb_true_r; auto.
    + intros d. unfold of_denom. destruct (denom_eqb_spec d (pr_base pr)) as [->|]; [rewrite F2; lia|]. destruct (denom_eqb d (pr_quote pr)); lia.
Qed.
Lemma both_coins_of pr cs : pr_base pr <> pr_quote pr -> valid_coins cs = true -> length cs = 2%nat -> (forall c, In c cs -> in_pair pr (fst c) = true) ->
  exists x y, both_coins pr cs x y /\ 0 < x /\ 0 < y.
Proof.
  intros N V L H. destruct cs as [|[d1 x1] [|[d2 x2] [|]]]; try discriminate L.
  pose proof (H _ (or_introl eq_refl)) as H1. pose proof (H _ (or_intror (or_introl eq_refl))) as H2. cbn [fst] in H1, H2. unfold in_pair in H1, H2. apply orb_true_iff in H1, H2.
  cbn [valid_coins has_denom existsb fst snd] in V. rewrite !orb_false_r, !andb_true_iff, !Z.ltb_lt in V. destruct V as ((P1 & D) & (P2 & _) & _).
  destruct (denom_eqb_spec d1 d2) as [|Nd]; [discriminate D|].
  destruct (denom_eqb_spec d1 (pr_base pr)) as [->|A1]; [|destruct (denom_eqb_spec d1 (pr_quote pr)) as [->|B1]; [|destruct H1; congruence]].
  - destruct (denom_eqb_spec d2 (pr_base pr)) as [->|A2]; [congruence|]. destruct (denom_eqb_spec d2 (pr_quote pr)) as [->|B2]; [|destruct H2; congruence]. exists x2, x1. split; [right; reflexivity|auto].
  - destruct (denom_eqb_spec d2 (pr_quote pr)) as [->|B2]; [congruence|]. destruct (denom_eqb_spec d2 (pr_base pr)) as [->|A2]; [|destruct H2; congruence]. exists x1, x2. split; [left; reflexivity|auto].
Qed.
Lemma pair_coins_facts pr cs x y : pr_base pr <> pr_quote pr -> pair_coins pr cs x y ->
  0 <= x /\ 0 <= y /\ valid_coins cs = true /\ (length cs = 1%nat \/ length cs = 2%nat) /\ (length cs = 2%nat <-> 0 < x /\ 0 < y) /\ (forall c, In c cs -> in_pair pr (fst c) = true /\ (snd c = x \/ snd c = y)) /\
  (0 < x -> In (pr_quote pr, x) cs) /\ (0 < y -> In (pr_base pr, y) cs) /\
  (forall d, amount_of cs d = of_denom d (pr_quote pr) x + of_denom d (pr_base pr) y) /\ amount_of cs (pr_quote pr) = x /\ amount_of cs (pr_base pr) = y.
Proof.
  intros N [(Hx & Hy & H)|[(Hx & -> & ->)|(-> & Hy & ->)]].
  - destruct (both_coins_facts pr cs x y N H Hx Hy) as (A1 & A2 & A3 & (A4 & A5) & A6 & A7 & A8).
    split; [lia|]. split; [lia|]. split; [exact A1|]. split; [right; exact A2|]. split; [tauto|]. split; [exact A3|]. auto.
  - assert (R2 : denom_eqb (pr_quote pr) (pr_quote pr) = true) by (destruct (denom_eqb_spec (pr_quote pr) (pr_quote pr)); congruence).
    assert (F2 : denom_eqb (pr_base pr) (pr_quote pr) = false) by (destruct (denom_eqb_spec (pr_base pr) (pr_quote pr)); congruence).
    assert (Px : (0 <? x) = true) by lia.
    split; [lia|]. split; [lia|]. cbn [valid_coins has_denom existsb length amount_of In]. rewrite R2, F2, Px. split; [reflexivity|]. split; [left; reflexivity|]. split; [split; [discriminate|lia]|].
    split; [intros c [<-|[]]; cbn [fst snd]; unfold in_pair; rewrite R2, orb_true_r; auto|]. split; [auto|]. split; [lia|]. split; [|auto].
    intros d. unfold of_denom. destruct (denom_eqb d (pr_quote pr)), (denom_eqb d (pr_base pr)); lia.
  - assert (R2 : denom_eqb (pr_base pr) (pr_base pr) = true) by (destruct (denom_eqb_spec (pr_base pr) (pr_base pr)); congruence).
    assert (F2 : denom_eqb (pr_quote pr) (pr_base pr) = false) by (destruct (denom_eqb_spec (pr_quote pr) (pr_base pr)); congruence).
    assert (Px : (0 <? y) = true) by lia.
    split; [lia|]. split; [lia|]. cbn [valid_coins has_denom existsb length amount_of In]. rewrite R2, F2, Px. split; [reflexivity|]. split; [left; reflexivity|]. split; [split; [discriminate|lia]|].
    split; [intros c [<-|[]]; cbn [fst snd]; unfold in_pair; rewrite R2; auto|]. split; [lia|]. split; [auto|]. split; [|auto].
    intros d. unfold of_denom. destruct (denom_eqb d (pr_quote pr)), (denom_eqb d (pr_base pr)); lia.
Qed.
Lemma pair_coins_of pr cs : pr_base pr <> pr_quote pr -> valid_coins cs = true -> (length cs = 1%nat \/ length cs = 2%nat) -> (forall c, In c cs -> in_pair pr (fst c) = true) ->
  exists x y, pair_coins pr cs x y.
Proof.
  intros N V [L|L] H.
  - destruct cs as [|[d x] [|]]; try discriminate L. pose proof (H _ (or_introl eq_refl)) as H1. cbn [fst] in H1. unfold in_pair in H1. apply orb_true_iff in H1.
    cbn [valid_coins has_denom existsb] in V. rewrite !andb_true_iff, Z.ltb_lt in V. destruct V as ((P & _) & _).
    destruct (denom_eqb_spec d (pr_base pr)) as [->|A1]; [exists 0, x; right; right; auto|]. destruct (denom_eqb_spec d (pr_quote pr)) as [->|B1]; [exists x, 0; right; left; auto|destruct H1; congruence].
  - destruct (both_coins_of pr cs N V L H) as (x & y & A & Hx & Hy). exists x, y. left. auto.
Qed.
Lemma existsb_none {A} (f : A -> bool) l : existsb f l = false <-> forall a, In a l -> f a = false.
Proof.
  split; [|intros H; induction l as [|a l IH]; [reflexivity|cbn; rewrite (H a (or_introl eq_refl)), IH; [reflexivity|intros b Hb; apply H; right; exact Hb]]].
  intros H a Ha. destruct (f a) eqn:E; [|reflexivity]. assert (existsb f l = true) by (apply existsb_exists; eauto). congruence.
Qed.

(** At an end of its range a ranged pool takes only one coin. *)
Lemma create_ranged_ends x y minp maxp initp p : create_ranged_pool x y minp maxp initp = Ok (Some p) -> (initp = minp -> p_rx p = 0) /\ (initp = maxp -> p_ry p = 0).
Proof.
  intros H. pose proof (create_ranged_facts x y minp maxp initp p H) as (_ & (Gr & _) & _). unfold create_ranged_pool in H. destruct ((x <=? 0) && (y <=? 0)); [discriminate H|]. apply rbind_ok in H. destruct H as (v & _ & H). destruct (negb v); [discriminate H|].
  apply rbind_ok in H. destruct H as ([ax ay] & Ha & H). cbn [fst snd] in H. apply rbind_ok in H. destruct H as (p' & Hn & H). injection H as ->.
  unfold new_ranged_pool in Hn. apply set_balances_res in Hn. destruct Hn as (-> & -> & _). destruct (Z.eqb_spec initp minp) as [E|N].
  - injection Ha as <- <-. split; [reflexivity|lia].
  - split; [lia|]. intros E. destruct (Z.eqb_spec initp maxp); [|lia]. injection Ha as <- <-. reflexivity.
Qed.

(** ** Pools *)
Lemma no_active_basic s i : str s -> (existsb active_basic (pools_of_pair s i) = false <->
  forall j p, get_pool s j = Some p -> pl_pair p = i -> pl_kind p = PBasic -> pl_disabled p = true).
Proof.
  intros S. rewrite existsb_none. split.
  - intros H j p G Ep K. destruct (i_pools _ S _ _ G) as (Ek & _ & _ & _ & _ & P). injection Ek as Ek. subst j.
    specialize (H (Some p)). cbn [active_basic] in H. rewrite K, andb_true_r in H. destruct (pl_disabled p); [reflexivity|]. exfalso. assert (X : negb false = false); [|discriminate X]. apply H.
    unfold pools_of_pair. apply in_map_iff. exists ((i, pl_id p), tt). cbn [fst snd]. split; [exact G|]. apply mprefix_In. split; [|reflexivity]. apply mget_In. congruence.
  - intros H op Hin. unfold pools_of_pair in Hin. apply in_map_iff in Hin. destruct Hin as ([[a b] v] & E & Hin). cbn [fst snd] in E. apply mprefix_In in Hin. cbn [fst snd] in Hin. destruct Hin as (Hin & ->).
    subst op. destruct v. apply (In_mget _ _ _ (msorted_NoDup _ (i_plidx_sorted _ S))) in Hin. destruct (i_plidx _ S _ _ Hin) as (p & G & Ep). rewrite G. cbn [active_basic]. destruct (pl_kind p) eqn:K; [|rewrite andb_false_r; reflexivity].
    rewrite (H _ _ G Ep K). reflexivity.
Qed.
Lemma create_basic_exact x y : 0 < x <= 10 ^ 40 -> 0 < y <= 10 ^ 40 ->
  create_basic_pool x y = Ok (if (10 ^ 3 <=? dquo (of_int x) (of_int y)) && (dquo (of_int x) (of_int y) <=? 10 ^ 38) then Some (Basic x y (initial_pool_coin_supply x y)) else None).
Proof.
  intros Hx Hy. unfold create_basic_pool. destruct (Z.eqb_spec x 0); [lia|]. destruct (Z.eqb_spec y 0); [lia|]. cbn [orb].
  assert (E : c_quo (of_int x) (of_int y) = Ok (dquo (of_int x) (of_int y))).
  { unfold c_quo, of_int. pose proof P18_pos. destruct (Z.eqb_spec (y * P18) 0); [nia|]. apply chk_dec_fits.
    pose proof (dquo_near (x * P18) (y * P18) ltac:(nia) ltac:(nia)) as (A & B & _). set (q := dquo (x * P18) (y * P18)) in *. clearbody q.
    assert (q <= x * P18 + 1) by nia. assert (x * P18 <= 10 ^ 40 * P18) by nia. assert (10 ^ 40 * P18 + 1 < 2 ^ 315) by reflexivity. lia. }
  rewrite E. cbn [rbind]. set (q := dquo (of_int x) (of_int y)). unfold min_pool_price, max_pool_price. change (10 ^ 3) with 1000.
  destruct (Z.ltb_spec q 1000), (Z.leb_spec 1000 q); try lia; cbn [andb]; [reflexivity|]. destruct (Z.ltb_spec (10 ^ 38) q), (Z.leb_spec q (10 ^ 38)); try lia; reflexivity.
Qed.
Lemma create_tail_effect Q s u pr kind ps dc s' : okp Q s -> create_pool_tail s u pr kind ps dc = Some s' ->
  pool_created s s' u pr kind dc (Z.max ps (pm_min_supply (st_params s))).
Proof.
  intros I H. pose proof (v_str _ _ I) as S. destruct (v_params _ _ I) as [V _]. destruct (create_pool_tail_bank _ _ _ _ _ _ _ V H) as (_ & A1 & _ & A3 & A4 & _).
  unfold pool_created. cbn zeta. split.
  { destruct (get_pool s (st_last_pool s + 1)) as [p|] eqn:G; [|reflexivity]. exfalso. destruct (i_pools _ S _ _ G) as (Ek & X & _). injection Ek as Ek. lia. }
  unfold create_pool_tail in H. inv_do. 
  apply st_send_spec in Heqo. destruct Heqo as (b1 & -> & _). apply st_send_spec in Heqo0. destruct Heqo0 as (b2 & -> & _). apply st_send_spec in H. destruct H as (b3 & -> & _).
  split. { intros i. unfold get_pool. cbn [st_pools put_pool set_pools set_last_pool set_bank set_plidx pl_id]. rewrite mget_mset, key1. reflexivity. }
  split. { intros a d. rewrite A3. unfold paid, at_acc. destruct (addr_eqb a (User u)), (addr_eqb a (PoolReserve (st_last_pool s + 1))), (addr_eqb a (pm_fee_collector (st_params s))); lia. }
  split; [exact A4|]. repeat (split; [reflexivity|]). reflexivity.
Qed.
Lemma create_tail_iff Q s u pr kind ps dc : okp Q s -> valid_coins dc = true ->
  (create_pool_tail s u pr kind ps dc <> None <-> holds_both s (User u) dc (pm_pool_fee (st_params s))).
Proof.
  intros I Vd. pose proof (okp_nonneg Q s I) as N. destruct (okp_params Q s I) as (_ & Hm & _ & Vf). split.
  - intros H. destruct (create_pool_tail _ _ _ _ _ _) as [s'|] eqn:E; [|congruence]. destruct (create_pool_tail_bank _ _ _ _ _ _ _ (proj1 (v_params _ _ I)) E) as (_ & _ & _ & _ & _ & A).
    intros d. destruct (A d) as (A1 & A2 & A3). pose proof (N (User u) d). destruct (Z_lt_le_dec 0 (amount_of dc d + amount_of (pm_pool_fee (st_params s)) d)); [auto|lia].
  - intros H. unfold create_pool_tail. set (id := st_last_pool s + 1). cbn zeta. unfold st_send at 1. cbn [st_bank put_pool set_pools set_last_pool set_plidx].
    destruct (send_ok (st_bank s) (User u) (PoolReserve id) dc Vd) as (b1 & E1). { intros d _. specialize (H d). pose proof (valid_amount_nonneg _ d Vf). lia. }
    rewrite E1. destruct (send_spec _ _ _ _ _ E1) as (_ & (M1 & _) & _). unfold st_send at 1. cbn [st_bank put_pool set_pools set_last_pool set_plidx set_bank].
    destruct (send_ok b1 (User u) (pm_fee_collector (st_params s)) (pm_pool_fee (st_params s)) Vf) as (b2 & E2). { intros d _. rewrite M1, addr_eqb_refl. cbn [addr_eqb]. specialize (H d). lia. }
    rewrite E2. set (x := Z.max ps (pm_min_supply (st_params s))). assert (Hx : 0 < x) by (unfold x; lia).
    destruct (new_coins_one_ok (PoolCoin id) x ltac:(lia)) as (pc & Epc). rewrite Epc. destruct (new_coins_one _ _ _ Epc) as (_ & Vp & Ap & _ & EC). destruct (Z.eqb_spec x 0); [lia|]. subst pc.
    unfold st_send. cbn [st_bank set_bank]. destruct (mint_one b2 (PoolCoin id) x) as [N1 _].
    destruct (send_ok (mint b2 [(PoolCoin id, x)]) DexModule (User u) [(PoolCoin id, x)] Vp) as (b3 & ->); [|discriminate].
    intros d _. rewrite N1, Ap. cbn [addr_eqb]. unfold at_acc, of_denom.
    assert (0 <= bal b2 DexModule d). { assert (bank_ok b2) as [X _]; [|apply X]. apply (bank_ok_send _ _ _ _ _ (bank_ok_send _ _ _ _ _ (v_bank _ _ I) E1) E2). }
    destruct (denom_eqb d (PoolCoin id)); cbn [andb]; lia.
Qed.
Lemma pair_id_of s i pr : str s -> get_pair s i = Some pr -> pr_id pr = i /\ pr_base pr <> pr_quote pr /\ i <> 0.
Proof. intros S G. destruct (i_pairs _ S _ _ G) as (Ek & P & N & _). injection Ek as Ek. split; [congruence|]. split; [exact N|lia]. Qed.

Lemma forallb_le cs : forallb (fun c : denom * Z => snd c <=? max_coin_amount) cs = true <-> forall c, In c cs -> snd c <= 10 ^ 40.
Proof. rewrite forallb_forall. unfold max_coin_amount. split; intros H c Hc; specialize (H c Hc); [apply Z.leb_le in H; exact H|apply Z.leb_le; exact H]. Qed.

(** Creation of a basic pool: what the handler needs, as a conjunction. *)
Lemma create_pool_exact Q s u i cs : okp Q s ->
  (forall s', deliver s (MCreatePool u i cs) = Some s' -> exists pr x y, basic_terms s u i cs pr x y /\ pool_created s s' u pr PBasic cs (Z.max (initial_pool_coin_supply x y) (pm_min_supply (st_params s)))) /\
  ((exists pr x y, basic_terms s u i cs pr x y) -> deliver s (MCreatePool u i cs) <> None).
Proof.
  intros I. pose proof (v_str _ _ I) as S. unfold deliver. cbn [validate_basic handle]. split.
  - intros s' H. destruct (_ && _) eqn:V; [|discriminate H]. rewrite !andb_true_iff in V. destruct V as (((_ & Vc) & Vl) & Vm). apply Nat.eqb_eq in Vl. rewrite forallb_le in Vm.
    unfold create_pool in H. destruct (get_pair s i) as [pr|] eqn:G; [|discriminate H]. destruct (pair_id_of s i pr S G) as (Ei & N & _).
    destruct (existsb (fun c => _ || _) cs) eqn:E1; [discriminate H|]. rewrite existsb_none in E1.
    destruct (existsb active_basic _) eqn:E2; [discriminate H|]. destruct (Z.leb_spec (pm_max_pools (st_params s)) (num_active s (pr_id pr))) as [|E3]; [discriminate H|].
    rewrite Ei in E2, E3. rewrite (no_active_basic s i S) in E2. rewrite (num_active_exact s i S) in E3.
    assert (X : forall c, In c cs -> in_pair pr (fst c) = true /\ pm_min_deposit (st_params s) <= snd c). { intros c Hc. specialize (E1 c Hc). apply orb_false_iff in E1. destruct (in_pair pr (fst c)); cbn [negb] in E1; [split; [reflexivity|lia]|destruct E1; discriminate]. }
    destruct (both_coins_of pr cs N Vc Vl (fun c Hc => proj1 (X c Hc))) as (x & y & B & Hx & Hy). destruct (both_coins_facts pr cs x y N B Hx Hy) as (_ & _ & _ & (I1 & I2) & A & Ax & Ay).
    rewrite Ax, Ay in H. pose proof (Vm _ I1) as L1. pose proof (Vm _ I2) as L2. pose proof (proj2 (X _ I1)) as M1. pose proof (proj2 (X _ I2)) as M2. cbn [snd] in L1, L2, M1, M2.
    rewrite (create_basic_exact x y (conj Hx L1) (conj Hy L2)) in H. cbn [of_res] in H. destruct ((10 ^ 3 <=? _) && _) eqn:Ep; [|discriminate H]. cbn [p_ps] in H.
    exists pr, x, y. split; [|exact (create_tail_effect Q _ _ _ _ _ _ _ I H)].
    assert (Hh : holds_both s (User u) cs (pm_pool_fee (st_params s))) by (apply (create_tail_iff Q s u pr PBasic (initial_pool_coin_supply x y) cs I Vc); rewrite H; discriminate).
    apply andb_true_iff in Ep. destruct Ep as [P1 P2]. apply Z.leb_le in P1, P2. unfold basic_terms. auto 20.
  - intros (pr & x & y & G & B & Hx & (M1 & L1) & Hy & (M2 & L2) & (P1 & P2) & E2 & E3 & Hh). destruct (pair_id_of s i pr S G) as (Ei & N & Ni). destruct (both_coins_facts pr cs x y N B Hx Hy) as (Vc & Vl & X & (I1 & I2) & A & Ax & Ay).
    destruct (Z.eqb_spec i 0); [lia|]. rewrite Vc, Vl. cbn [negb andb Nat.eqb].
    assert (Vm : forallb (fun c => snd c <=? max_coin_amount) cs = true). { apply forallb_le. intros c Hc. destruct (proj2 (X c Hc)) as [-> | ->]; assumption. } rewrite Vm.
    unfold create_pool. rewrite G.
    assert (E1 : existsb (fun c => negb (in_pair pr (fst c)) || (snd c <? pm_min_deposit (st_params s))) cs = false).
    { apply existsb_none. intros c Hc. destruct (X c Hc) as [-> [-> | ->]]; cbn [negb orb]; lia. } rewrite E1, Ei.
    rewrite (proj2 (no_active_basic s i S) E2), (num_active_exact s i S). destruct (Z.leb_spec (pm_max_pools (st_params s)) (active_pools s i)); [lia|].
    rewrite Ax, Ay, (create_basic_exact x y (conj Hx L1) (conj Hy L2)). cbn [of_res]. destruct (Z.leb_spec (10 ^ 3) (dquo (of_int x) (of_int y))); [|lia]. destruct (Z.leb_spec (dquo (of_int x) (of_int y)) (10 ^ 38)); [|lia]. cbn [andb].
    apply (create_tail_iff Q s u pr PBasic _ cs I Vc). exact Hh.
Qed.

Lemma down_tick_is price prec : 0 <= prec -> 0 < price -> (price_to_down_tick price prec = price <-> is_tick prec price).
Proof.
  intros Hp Hx. split; [|apply down_tick_id; exact Hp]. intros E. destruct (price_to_down_tick_spec price prec Hp Hx) as (T & _). rewrite E in T. exact T.
Qed.
Lemma down_chk price prec : 0 < price -> price_to_down_tick_chk price prec = Ok (price_to_down_tick price prec).
Proof. intros H. unfold price_to_down_tick_chk. destruct (Z.eqb_spec price 0); [lia|reflexivity]. Qed.

Lemma create_rpool_exact Q s u i cs minp maxp initp : okp Q s ->
  (forall s', deliver s (MCreateRangedPool u i cs minp maxp initp) = Some s' -> exists pr x y ax ay taken, ranged_terms s u i cs minp maxp initp pr x y ax ay /\
     (forall d, amount_of taken d = of_denom d (pr_quote pr) ax + of_denom d (pr_base pr) ay) /\
     pool_created s s' u pr (PRanged minp maxp) taken (Z.max (initial_pool_coin_supply ax ay) (pm_min_supply (st_params s)))) /\
  ((exists pr x y ax ay, ranged_terms s u i cs minp maxp initp pr x y ax ay) -> deliver s (MCreateRangedPool u i cs minp maxp initp) <> None).
Proof.
  intros I. pose proof (v_str _ _ I) as S. destruct (okp_params Q s I) as (Hp & _). unfold deliver. cbn [validate_basic handle].
  assert (Eps : forall x y ap, create_ranged_pool x y minp maxp initp = Ok (Some ap) -> validate_ranged_pool_params minp maxp initp = Ok true /\ p_ps ap = initial_pool_coin_supply (p_rx ap) (p_ry ap) /\ 0 < minp /\ 0 < maxp /\ 0 < initp).
  { intros x y ap H. pose proof (create_ranged_facts _ _ _ _ _ _ H) as (_ & (Gr & _) & Gi & _ & tx & ty & Ep). unfold min_pool_price in Gr. split; [|split; [rewrite Ep; reflexivity|lia]].
    unfold create_ranged_pool in H. destruct (_ && _); [discriminate H|]. apply rbind_ok in H. destruct H as (v & Hv & H). destruct v; [exact Hv|discriminate H]. }
  split.
  - intros s' H. destruct (_ && _) eqn:V; [|discriminate H]. rewrite !andb_true_iff in V. destruct V as ((((_ & Vc) & Vl) & Vm) & Vr). rewrite forallb_le in Vm.
    apply orb_true_iff in Vl. rewrite !Nat.eqb_eq in Vl. destruct (validate_ranged_pool_params minp maxp initp) as [v| |] eqn:Er; try discriminate Vr. subst v.
    pose proof (validate_good_range _ _ _ Er) as ((Gr & _) & Gi). unfold min_pool_price in Gr.
    unfold create_rpool in H. cbn zeta in H. rewrite !down_chk in H by lia. cbn [of_res] in H. destruct (negb (_ && _)) eqn:Et; [discriminate H|]. apply negb_false_iff in Et. rewrite !andb_true_iff, !Z.eqb_eq in Et. destruct Et as ((T1 & T2) & T3).
    rewrite down_tick_is in T1, T2, T3 by lia. unfold lowest_tick_chk in H. destruct (Z.ltb_spec 18 (pm_tick_prec (st_params s))); [discriminate H|]. destruct (Z.ltb_spec minp (lowest_tick (pm_tick_prec (st_params s)))); [discriminate H|].
    destruct (get_pair s i) as [pr|] eqn:G; [|discriminate H]. destruct (pair_id_of s i pr S G) as (Ei & N & _).
    destruct (existsb (fun c => negb _) cs) eqn:E1; [discriminate H|]. rewrite existsb_none in E1. destruct (Z.leb_spec (pm_max_pools (st_params s)) (num_active s (pr_id pr))) as [|E3]; [discriminate H|].
    rewrite Ei in E3. rewrite (num_active_exact s i S) in E3.
    destruct (pair_coins_of pr cs N Vc Vl) as (x & y & B). { intros c Hc. specialize (E1 c Hc). destruct (in_pair pr (fst c)); [reflexivity|discriminate E1]. }
    destruct (pair_coins_facts pr cs x y N B) as (X0 & Y0 & _ & _ & _ & _ & I1 & I2 & _ & Ax & Ay). rewrite Ax, Ay in H.
    assert (Lx : x <= 10 ^ 40). { destruct (Z_lt_le_dec 0 x) as [P|]; [exact (Vm _ (I1 P))|assert (0 <= 10 ^ 40) by discriminate; lia]. }
    assert (Ly : y <= 10 ^ 40). { destruct (Z_lt_le_dec 0 y) as [P|]; [exact (Vm _ (I2 P))|assert (0 <= 10 ^ 40) by discriminate; lia]. }
    destruct (create_ranged_pool x y minp maxp initp) as [[ap|]| |] eqn:Ec; try discriminate H. cbn [of_res] in H. destruct (Eps _ _ _ Ec) as (_ & Ep & _). rewrite Ep in H.
    destruct ((p_rx ap <? _) && _) eqn:Em; [discriminate H|]. destruct (new_coins _) as [dc|] eqn:En; [|discriminate H].
    destruct (new_coins_two_spec _ _ _ _ _ (not_eq_sym N) En) as (A0 & B0 & Vd & Ad).
    assert (Ad' : forall d, amount_of dc d = of_denom d (pr_quote pr) (p_rx ap) + of_denom d (pr_base pr) (p_ry ap)).
    { intros d. rewrite Ad. unfold of_denom. destruct (denom_eqb_spec d (pr_quote pr)) as [->|]; [|lia]. destruct (denom_eqb_spec (pr_quote pr) (pr_base pr)); [congruence|lia]. }
    assert (Hh : holds_both s (User u) dc (pm_pool_fee (st_params s))) by (apply (create_tail_iff Q s u pr (PRanged minp maxp) (initial_pool_coin_supply (p_rx ap) (p_ry ap)) dc I Vd); rewrite H; discriminate).
    exists pr, x, y, (p_rx ap), (p_ry ap), dc. split; [|split; [exact Ad'|exact (create_tail_effect Q _ _ _ _ _ _ _ I H)]].
    unfold ranged_terms. split; [exact G|]. split; [exact B|]. split; [exact Lx|]. split; [exact Ly|]. split; [assumption|]. split; [assumption|]. split; [exact T1|]. split; [exact T2|]. split; [exact T3|].
    split; [exists ap; auto|]. split; [exact A0|]. split; [exact B0|]. split; [apply andb_false_iff in Em; lia|]. split; [exact E3|]. intros d. specialize (Hh d). rewrite Ad' in Hh. exact Hh.
  - intros (pr & x & y & ax & ay & G & B & Lx & Ly & Hpr & Hlo & T1 & T2 & T3 & (ap & Ec & <- & <-) & A0 & B0 & Em & E3 & Hh). destruct (pair_id_of s i pr S G) as (Ei & N & Ni).
    destruct (pair_coins_facts pr cs x y N B) as (X0 & Y0 & Vc & Vl & _ & X & _ & _ & _ & Ax & Ay). destruct (Eps _ _ _ Ec) as (Er & Ep & P1 & P2 & P3).
    destruct (Z.eqb_spec i 0); [lia|]. rewrite Vc, Er.
    assert (Vl' : Nat.eqb (length cs) 1 || Nat.eqb (length cs) 2 = true) by (destruct Vl as [-> | ->]; reflexivity). rewrite Vl'.
    assert (Vm : forallb (fun c => snd c <=? max_coin_amount) cs = true). { apply forallb_le. intros c Hc. destruct (proj2 (X c Hc)) as [-> | ->]; assumption. } rewrite Vm. cbn [negb andb].
    unfold create_rpool. cbn zeta. rewrite !down_chk by assumption. cbn [of_res]. rewrite (proj2 (down_tick_is _ _ Hp P1) T1), (proj2 (down_tick_is _ _ Hp P2) T2), (proj2 (down_tick_is _ _ Hp P3) T3), !Z.eqb_refl. cbn [andb negb].
    unfold lowest_tick_chk. destruct (Z.ltb_spec 18 (pm_tick_prec (st_params s))); [lia|]. destruct (Z.ltb_spec minp (lowest_tick (pm_tick_prec (st_params s)))); [lia|]. rewrite G.
    assert (E1 : existsb (fun c => negb (in_pair pr (fst c))) cs = false). { apply existsb_none. intros c Hc. rewrite (proj1 (X c Hc)). reflexivity. } rewrite E1, Ei, (num_active_exact s i S).
    destruct (Z.leb_spec (pm_max_pools (st_params s)) (active_pools s i)); [lia|]. rewrite Ax, Ay, Ec. cbn [of_res]. rewrite Ep.
    assert (Em' : (p_rx ap <? pm_min_deposit (st_params s)) && (p_ry ap <? pm_min_deposit (st_params s)) = false) by (apply andb_false_iff; lia). rewrite Em'.
    destruct (new_coins_two (pr_quote pr) (p_rx ap) (pr_base pr) (p_ry ap) (not_eq_sym N) A0 B0) as (dc & En). rewrite En. destruct (new_coins_two_spec _ _ _ _ _ (not_eq_sym N) En) as (_ & _ & Vd & Ad).
    apply (create_tail_iff Q s u pr (PRanged minp maxp) _ dc I Vd). intros d. specialize (Hh d). rewrite Ad. unfold of_denom in Hh. destruct (denom_eqb_spec d (pr_quote pr)) as [Ed|]; [|lia]. destruct (denom_eqb_spec d (pr_base pr)); [congruence|lia].
Qed.

(** ** Requests *)
Lemma pool_id_of s i p : str s -> get_pool s i = Some p -> pl_id p = i /\ i <> 0.
Proof. intros S G. destruct (i_pools _ S _ _ G) as (Ek & P & _). injection Ek as Ek. split; [congruence|lia]. Qed.
Lemma fresh_dep s i p : str s -> get_pool s i = Some p -> mget (st_deps s) (i, pl_last_dep p + 1) = None.
Proof.
  intros S G. destruct (mget (st_deps s) (i, pl_last_dep p + 1)) as [r|] eqn:E; [|reflexivity]. exfalso. destruct (i_deps _ S _ _ E) as (Ek & (q & Gq & L & _) & _). injection Ek as E1 E2. rewrite <- E1 in Gq. rewrite Gq in G. injection G as ->. lia.
Qed.
Lemma fresh_wd s i p : str s -> get_pool s i = Some p -> mget (st_wds s) (i, pl_last_wd p + 1) = None.
Proof.
  intros S G. destruct (mget (st_wds s) (i, pl_last_wd p + 1)) as [r|] eqn:E; [|reflexivity]. exfalso. destruct (i_wds _ S _ _ E) as (Ek & (q & Gq & L) & _). injection Ek as E1 E2. rewrite <- E1 in Gq. rewrite Gq in G. injection G as ->. lia.
Qed.
Lemma deposit_exact Q s u i cs : okp Q s ->
  (forall s', deliver s (MDeposit u i cs) = Some s' -> exists p pr x y, deposit_terms s u i cs p pr x y /\ deposit_queued s s' u i cs p) /\
  ((exists p pr x y, deposit_terms s u i cs p pr x y) -> deliver s (MDeposit u i cs) <> None).
Proof.
  intros I. pose proof (v_str _ _ I) as S. pose proof (okp_nonneg Q s I) as Nn. unfold deliver. cbn [validate_basic handle]. split.
  - intros s' H. destruct (_ && _) eqn:V; [|discriminate H]. rewrite !andb_true_iff in V. destruct V as ((_ & Vc) & Vl). apply orb_true_iff in Vl. rewrite !Nat.eqb_eq in Vl.
    unfold deposit_msg in H. destruct (get_pool s i) as [p|] eqn:G; [|discriminate H]. destruct (pool_id_of s i p S G) as (Ei & _). destruct (pl_disabled p) eqn:Dp; [discriminate H|].
    destruct (match pl_kind p with PBasic => _ | _ => _ end) eqn:Ek; [discriminate H|]. destruct (get_pair s (pl_pair p)) as [pr|] eqn:Gp; [|discriminate H]. destruct (pair_id_of s _ pr S Gp) as (_ & N & _).
    destruct (existsb _ cs) eqn:E1; [discriminate H|]. rewrite existsb_none in E1.
    destruct (pair_coins_of pr cs N Vc Vl) as (x & y & B). { intros c Hc. specialize (E1 c Hc). destruct (in_pair pr (fst c)); [reflexivity|discriminate E1]. }
    destruct (pair_coins_facts pr cs x y N B) as (X0 & Y0 & _ & _ & L2 & _ & _ & _ & _ & Ax & Ay). rewrite Ax, Ay in H. unfold pool_rx, pool_ry in H. rewrite Ei in H. unfold max_coin_amount in H.
    destruct (Z.ltb_spec (10 ^ 40) (bal (st_bank s) (PoolReserve i) (pr_quote pr) + x)); [discriminate H|]. destruct (Z.ltb_spec (10 ^ 40) (bal (st_bank s) (PoolReserve i) (pr_base pr) + y)); [discriminate H|].
    destruct (st_send s (User u) GlobalEscrow cs) as [s1|] eqn:Es; [|discriminate H].
    assert (Hh : holds s (User u) cs) by (apply (st_send_iff s (User u) GlobalEscrow cs Nn Vc); rewrite Es; discriminate).
    destruct (st_send_paid _ _ _ _ _ Es) as (b & -> & _ & _ & B1 & B2). clear Es. cbn zeta in H. injection H as <-.
    exists p, pr, x, y. split.
    + unfold deposit_terms. split; [exact G|]. split; [exact Dp|]. split; [exact Gp|]. split; [exact B|]. split; [|auto].
      intros K. rewrite K in Ek. apply negb_false_iff, Nat.eqb_eq in Ek. apply L2. exact Ek.
    + unfold deposit_queued. cbn zeta. split; [exact (fresh_dep s i p S G)|]. split.
      { intros j k. cbn [st_deps put_dep set_deps put_pool set_pools set_bank dr_pool dr_id st_height]. rewrite mget_mset, key2. reflexivity. }
      split. { intros j. unfold get_pool. cbn [st_pools put_dep set_deps put_pool set_pools set_bank pl_id]. rewrite mget_mset, key1, Dp. reflexivity. }
      split; [exact B1|]. split; [exact B2|]. repeat (split; [reflexivity|]). reflexivity.
  - intros (p & pr & x & y & G & Dp & Gp & B & K & Lx & Ly & Hh). destruct (pool_id_of s i p S G) as (Ei & Ni). destruct (pair_id_of s _ pr S Gp) as (_ & N & _).
    destruct (pair_coins_facts pr cs x y N B) as (X0 & Y0 & Vc & Vl & L2 & X & _ & _ & _ & Ax & Ay). destruct (Z.eqb_spec i 0); [lia|]. rewrite Vc.
    assert (Vl' : Nat.eqb (length cs) 1 || Nat.eqb (length cs) 2 = true) by (destruct Vl as [-> | ->]; reflexivity). rewrite Vl'. cbn [negb andb].
    unfold deposit_msg. rewrite G, Dp.
    assert (Ek : match pl_kind p with PBasic => negb (Nat.eqb (length cs) 2) | PRanged _ _ => false end = false). { destruct (pl_kind p); [|reflexivity]. rewrite (proj2 L2 (K eq_refl)). reflexivity. } rewrite Ek, Gp.
    assert (E1 : existsb (fun c => negb (in_pair pr (fst c))) cs = false). { apply existsb_none. intros c Hc. rewrite (proj1 (X c Hc)). reflexivity. } rewrite E1, Ax, Ay. unfold pool_rx, pool_ry, max_coin_amount. rewrite Ei.
    destruct (Z.ltb_spec (10 ^ 40) (bal (st_bank s) (PoolReserve i) (pr_quote pr) + x)); [lia|]. destruct (Z.ltb_spec (10 ^ 40) (bal (st_bank s) (PoolReserve i) (pr_base pr) + y)); [lia|].
    apply (st_send_iff s (User u) GlobalEscrow cs Nn Vc) in Hh. destruct (st_send s (User u) GlobalEscrow cs); [discriminate|congruence].
Qed.
Lemma withdraw_exact Q s u i d x : okp Q s ->
  (forall s', deliver s (MWithdraw u i d x) = Some s' -> exists p, get_pool s i = Some p /\ pl_disabled p = false /\ d = PoolCoin i /\ 0 < x <= bal (st_bank s) (User u) (PoolCoin i) /\ withdrawal_queued s s' u i x p) /\
  ((exists p, get_pool s i = Some p /\ pl_disabled p = false /\ d = PoolCoin i /\ 0 < x <= bal (st_bank s) (User u) (PoolCoin i)) -> deliver s (MWithdraw u i d x) <> None).
Proof.
  intros I. pose proof (v_str _ _ I) as S. pose proof (okp_nonneg Q s I) as Nn. unfold deliver. cbn [validate_basic handle].
  assert (R : forall d', denom_eqb d' d' = true) by (intros d'; destruct (denom_eqb_spec d' d'); congruence).
  split.
  - intros s' H. destruct (_ && _) eqn:V; [|discriminate H]. rewrite !andb_true_iff in V. destruct V as (_ & Vx). apply Z.ltb_lt in Vx.
    unfold withdraw_msg in H. destruct (get_pool s i) as [p|] eqn:G; [|discriminate H]. destruct (pool_id_of s i p S G) as (Ei & _). destruct (pl_disabled p) eqn:Dp; [discriminate H|]. rewrite Ei in H.
    destruct (denom_eqb_spec d (PoolCoin i)) as [->|]; [|discriminate H]. cbn [negb] in H. destruct (st_send s (User u) GlobalEscrow _) as [s1|] eqn:Es; [|discriminate H].
    assert (Vc : valid_coins [(PoolCoin i, x)] = true) by (cbn; destruct (Z.ltb_spec 0 x); [reflexivity|lia]).
    assert (Hh : holds s (User u) [(PoolCoin i, x)]) by (apply (st_send_iff s (User u) GlobalEscrow _ Nn Vc); rewrite Es; discriminate). specialize (Hh (PoolCoin i)). cbn [amount_of] in Hh. rewrite R in Hh.
    destruct (st_send_paid _ _ _ _ _ Es) as (b & -> & _ & _ & B1 & B2). clear Es. cbn zeta in H. injection H as <-.
    exists p. split; [reflexivity|]. split; [exact Dp|]. split; [reflexivity|]. split; [lia|]. unfold withdrawal_queued. cbn zeta. split; [exact (fresh_wd s i p S G)|]. split.
    { intros j k. cbn [st_wds put_wd set_wds put_pool set_pools set_bank wr_pool wr_id st_height]. rewrite mget_mset, key2. reflexivity. }
    split. { intros j. unfold get_pool. cbn [st_pools put_wd set_wds put_pool set_pools set_bank pl_id]. rewrite mget_mset, key1, Dp. reflexivity. }
    split; [exact B1|]. split; [exact B2|]. repeat (split; [reflexivity|]). reflexivity.
  - intros (p & G & Dp & -> & Hx). destruct (pool_id_of s i p S G) as (Ei & Ni). destruct (Z.eqb_spec i 0); [lia|]. destruct (Z.ltb_spec 0 x); [|lia]. cbn [negb andb].
    unfold withdraw_msg. rewrite G, Dp, Ei, R. cbn [negb].
    assert (Vc : valid_coins [(PoolCoin i, x)] = true) by (cbn; destruct (Z.ltb_spec 0 x); [reflexivity|lia]).
    assert (Hh : holds s (User u) [(PoolCoin i, x)]). { intros e. cbn [amount_of]. pose proof (Nn (User u) e). destruct (denom_eqb_spec e (PoolCoin i)) as [->|]; lia. }
    apply (st_send_iff s (User u) GlobalEscrow _ Nn Vc) in Hh. destruct (st_send s (User u) GlobalEscrow _); [discriminate|congruence].
Qed.
