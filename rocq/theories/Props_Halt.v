(** Property C43, positive part: when the end blocker does complete.  See Props_Keeper.v for [reach (sane Q)]. *)
From Verif Require Import Base Dec DecProofs TickModel TickSpec TickProofs OrderModel MatchModel MatchSpec OrderProofs MatchProofs PoolModel PoolProofs PoolOrderProofs RangeProofs
  KeeperModel KeeperLib KeeperSpec KeeperMicro KeeperInv KeeperHist KeeperBank KeeperTrade CoverSpec KeeperCover KeeperHalt KeeperHalt2 KeeperTicks KeeperExample Props_Keeper Props_Keeper6.

(** ** C43: the end-of-block batch never fails. *)

(** The last price of a pair is a tick, its lower limit does not round to nothing, and it is far from
    the largest representable decimal. *)
Definition fair_price (prm : params) (last : dec) : Prop :=
  is_tick (pm_tick_prec prm) last /\ P18 <= last * (P18 - pm_price_ratio prm) /\ last < 2 ^ 314.

Lemma fair_limits prm last : 0 <= pm_tick_prec prm -> 0 <= pm_price_ratio prm < P18 -> fair_price prm last ->
  0 < last /\ exists lo hi, price_limits last (pm_price_ratio prm) (pm_tick_prec prm) = Ok (lo, hi) /\ lo <= hi.
Proof.
  intros Hp Hr (T & L & H). pose proof P18_pos as Pp. pose proof (tick_pos _ _ T) as L0. split; [exact L0|].
  set (r := pm_price_ratio prm) in *. set (prec := pm_tick_prec prm) in *.
  assert (E : exists lo hi, price_limits last r prec = Ok (lo, hi)).
  { unfold price_limits, one_dec.
    destruct (dmul_near last (P18 - r) ltac:(lia) ltac:(lia)) as (A0 & A1 & A2).
    destruct (dmul_near last (P18 + r) ltac:(lia) ltac:(lia)) as (B0 & B1 & B2).
    change (2 ^ 315) with (2 * 2 ^ 314) in *. set (B := 2 ^ 314) in *. 
    assert (X1 : 0 < dmul last (P18 - r) < 2 * B) by (split; nia). assert (X2 : 0 < dmul last (P18 + r) < 2 * B) by (split; nia).
    unfold c_mul. rewrite chk_dec_fits by (change (2 ^ 315) with (2 * 2 ^ 314); fold B; lia). cbn [rbind]. unfold price_to_up_tick_chk. destruct (Z.eqb_spec (dmul last (P18 - r)) 0); [lia|]. cbn [rbind].
    rewrite chk_dec_fits by (change (2 ^ 315) with (2 * 2 ^ 314); fold B; lia). cbn [rbind]. unfold price_to_down_tick_chk. destruct (Z.eqb_spec (dmul last (P18 + r)) 0); [lia|]. cbn [rbind]. eauto. }
  destruct E as (lo & hi & E). exists lo, hi. split; [exact E|].
  destruct (price_limits_spec _ _ _ _ _ Hp L0 Hr E) as (_ & _ & _ & _ & S). specialize (S last T). nia.
Qed.

Lemma where_mono Q (P P' : state -> Prop) c c' : (forall s, P s -> P' s) -> runs_where Q P c c' -> runs_where Q P' c c'.
Proof.
  intros H R. induction R as [c|c s t R IH S|c s t R IH S|c s t R IH Ps S]; [constructor|exact (Where_begin _ _ c s t IH S)|exact (Where_msg _ _ c s t IH S)|exact (Where_end _ _ c s t IH (H s Ps) S)].
Qed.

(** The end blocker completes in every block of every history in which
    - nothing was ever offered for sale below price one when a batch ran,
    - the parameters are sane: tick precision at most 18, withdraw fee at most one,
    - every pool that is still active is a basic pool,
    - every coin has a supply below 2^196 and the last prices are fair.
    Missing: prices below one and ranged pools, where it is false (C43_refuted, C43_gift_refuted). *)
Theorem C43_no_halt_partial : forall (Q : params -> Prop) s0 s iter, genesis (sane Q) s0 ->
  runs_where (sane Q) (fun s => forall i, sells_above_one s i) (Between, s0) (InBlock, s) -> (forall i, sells_above_one s i) ->
  pm_tick_prec (st_params s) <= 18 -> pm_withdraw_fee (st_params s) <= P18 ->
  (forall k p, get_pool s k = Some p -> pl_disabled p = false -> pl_kind p = PBasic) ->
  (forall d, supply (st_bank s) d < 2 ^ 196) ->
  (forall i pr last, get_pair s i = Some pr -> pr_last_price pr = Some last -> fair_price (st_params s) last) ->
  is_perm_iter iter -> end_block iter s <> None.
Proof.
  intros Q s0 s iter G R Ab H18 Fee Bo Bs Fp Hi.
  assert (Re : reach (sane Q) (InBlock, s)) by (exists s0; split; [exact G|exact (where_runs _ _ _ _ R)]).
  pose proof (reach_okp Q _ Re) as Ok. cbn [snd] in Ok.
  apply (end_block_total (sane Q) iter s Hi Ok (fun p H => proj2 H) H18 Fee Bo Bs).
  - intros i d. apply (slack_history Q i d s0 (InBlock, s) G). refine (where_mono _ (fun s => forall i, sells_above_one s i) _ _ _ _ R); intros x X; exact (X i).
  - intros d. exact (reach_excess Q (InBlock, s) d Re).
  - intros i pr Gp. split; [apply Ab|]. intros l El. destruct (v_params _ _ Ok) as [Vp Sp]. unfold valid_params in Vp. rewrite !andb_true_iff in Vp.
    apply fair_limits; [lia| |exact (Fp i pr l Gp El)]. split; [lia|]. exact (proj2 Sp).
Qed.
Print Assumptions C43_no_halt_partial.
(** With a tick precision that governance never changes, the last prices are ticks (C65), so it is
    enough that they are neither vanishing nor near the largest representable decimal. *)
Theorem C43_no_halt_fixed_partial : forall (Q : params -> Prop) n s0 s iter, (forall p, Q p -> pm_tick_prec p = n) -> n <= 18 -> genesis (sane Q) s0 ->
  runs_where (sane Q) (fun s => forall i, sells_above_one s i) (Between, s0) (InBlock, s) -> (forall i, sells_above_one s i) ->
  pm_withdraw_fee (st_params s) <= P18 ->
  (forall k p, get_pool s k = Some p -> pl_disabled p = false -> pl_kind p = PBasic) ->
  (forall d, supply (st_bank s) d < 2 ^ 196) ->
  (forall i pr last, get_pair s i = Some pr -> pr_last_price pr = Some last -> P18 <= last * (P18 - pm_price_ratio (st_params s)) /\ last < 2 ^ 314) ->
  is_perm_iter iter -> end_block iter s <> None.
Proof.
  intros Q n s0 s iter HQ Hn G R Ab Fee Bo Bs Fp Hi.
  assert (Re : reach (sane Q) (InBlock, s)) by (exists s0; split; [exact G|exact (where_runs _ _ _ _ R)]).
  destruct (v_params _ _ (reach_okp Q _ Re)) as (_ & Qp & _). cbn [snd] in Qp. pose proof (HQ _ Qp) as En.
  apply (C43_no_halt_partial Q s0 s iter G R Ab); [lia|exact Fee|exact Bo|exact Bs| |exact Hi].
  intros i pr last Gp El. destruct (Fp i pr last Gp El) as [F1 F2]. split; [|split; [exact F1|exact F2]].
  rewrite En. refine (proj2 (reach_ticks n Q _ (fun p H => _) Re) _ pr last Gp El). rewrite (HQ p H). apply Z.le_refl.
Qed.
Print Assumptions C43_no_halt_fixed_partial.

(** A concrete history: a trade at price two; then a pool at that price, a deposit, a withdrawal, a
    market order against the pool and a resting sell order, all pending when the block ends. *)
Definition busy : list action := above1 ++ [AEnd; ABegin 10;
   AMsg (MCreatePool 1 1 [(Coin 1, 50000000); (Coin 2, 100000000)]);
   AMsg (MDeposit 2 1 [(Coin 1, 5000000); (Coin 2, 9000000)]); AMsg (MWithdraw 1 1 (PoolCoin 1) 1000000000);
   AMsg (MMarketOrder 3 1 Buy (Coin 2) 5000000 (Coin 1) 1000000 60); AMsg (MLimitOrder 2 1 Sell (Coin 1) 1000000 (Coin 2) (P18 * 21 / 10) 1000000 60)].
Definition all_above (s : state) : bool :=
  forallb (fun kv => negb (live (snd kv) && match ko_dir (snd kv) with Sell => true | Buy => false end) || (P18 <=? ko_price (snd kv))) (st_orders s) &&
  (match st_pools s with [] => true | _ => false end ||
   forallb (fun kv => match pr_last_price (snd kv) with
                      | Some l => match price_limits l (pm_price_ratio (st_params s)) (pm_tick_prec (st_params s)) with Ok (lo, _) => P18 <=? lo | _ => false end
                      | None => false end) (st_pairs s)).
Lemma all_above_ok s : all_above s = true -> forall i, sells_above_one s i.
Proof.
  intros H i. apply andb_true_iff in H. destruct H as [H1 H2]. split.
  - intros j o G L D. apply mget_In in G. rewrite forallb_forall in H1. specialize (H1 _ G). cbn [snd] in H1. rewrite L, D in H1. cbn [andb negb orb] in H1. lia.
  - apply orb_true_iff in H2. destruct H2 as [H2|H2].
    + left. intros k p G. unfold get_pool in G. destruct (st_pools s); [discriminate G|discriminate H2].
    + right. intros pr G. apply mget_In in G. rewrite forallb_forall in H2. specialize (H2 _ G). cbn [snd] in H2.
      destruct (pr_last_price pr) as [l|]; [|discriminate H2]. destruct (price_limits l _ _) as [[lo hi]| |] eqn:E; try discriminate H2. exists l, lo, hi. split; [reflexivity|]. split; [exact E|lia].
Qed.
Definition only_basic (s : state) : bool := forallb (fun kv => match pl_kind (snd kv) with PBasic => true | _ => false end) (st_pools s).
Lemma only_basic_ok s : only_basic s = true -> forall k p, get_pool s k = Some p -> pl_disabled p = false -> pl_kind p = PBasic.
Proof. intros X k p G _. apply mget_In in G. unfold only_basic in X. rewrite forallb_forall in X. specialize (X _ G). cbn [snd] in X. destruct (pl_kind p); [reflexivity|discriminate X]. Qed.
Definition last_prices (x : dec) (s : state) : bool := forallb (fun kv => match pr_last_price (snd kv) with Some l => l =? x | None => true end) (st_pairs s).
Lemma last_prices_ok x s : last_prices x s = true -> forall i pr last, get_pair s i = Some pr -> pr_last_price pr = Some last -> last = x.
Proof. intros X i pr last G El. apply mget_In in G. unfold last_prices in X. rewrite forallb_forall in X. specialize (X _ G). cbn [snd] in X. rewrite El in X. apply Z.eqb_eq in X. exact X. Qed.
(** Everything checked about the last state, evaluated once. *)
Definition busy_facts (c : config) : bool :=
  let s := snd c in
  match fst c with InBlock => true | Between => false end && (all_above s && (only_basic s && (last_prices (2 * P18) s && ((st_last_pool s =? 1) && ((supply (st_bank s) (PoolCoin 1) <? 2 ^ 196) &&
  (((pm_tick_prec (st_params s) =? 4) && (pm_withdraw_fee (st_params s) =? 0) && (pm_price_ratio (st_params s) =? P18 / 10)) &&
  (match get_pool s 1 with Some p => negb (pl_disabled p) | None => false end && (match get_pair s 1 with Some pr => match pr_last_price pr with Some _ => true | None => false end | None => false end &&
  ((length (st_deps s) =? 1)%nat && ((length (st_wds s) =? 1)%nat && (length (st_orders s) =? 3)%nat)))))))))).
Lemma busy_ok c : busy_facts c = true -> reach (sane any_params) c -> runs (sane any_params) (Between, ex_start 1) c ->
  fst c = InBlock /\ (forall i, sells_above_one (snd c) i) /\ (pm_tick_prec (st_params (snd c)) = 4 /\ pm_withdraw_fee (st_params (snd c)) = 0 /\ pm_price_ratio (st_params (snd c)) = P18 / 10) /\
  (exists p, get_pool (snd c) 1 = Some p /\ pl_disabled p = false /\ pl_kind p = PBasic) /\ (exists pr, get_pair (snd c) 1 = Some pr /\ pr_last_price pr = Some (2 * P18)) /\
  (forall d, supply (st_bank (snd c)) d < 2 ^ 196) /\ (forall k p, get_pool (snd c) k = Some p -> pl_disabled p = false -> pl_kind p = PBasic) /\
  (forall i pr last, get_pair (snd c) i = Some pr -> pr_last_price pr = Some last -> fair_price (st_params (snd c)) last) /\
  length (st_deps (snd c)) = 1%nat /\ length (st_wds (snd c)) = 1%nat /\ length (st_orders (snd c)) = 3%nat.
Proof.
  intros H Re R. unfold busy_facts in H. apply andb_true_iff in H. destruct H as [H1 H]. apply andb_true_iff in H. destruct H as [H2 H]. apply andb_true_iff in H. destruct H as [H3 H].
  apply andb_true_iff in H. destruct H as [H4 H]. apply andb_true_iff in H. destruct H as [H5 H]. apply andb_true_iff in H. destruct H as [H6 H]. apply andb_true_iff in H. destruct H as [H7 H].
  apply andb_true_iff in H. destruct H as [H8 H]. apply andb_true_iff in H. destruct H as [H9 H]. apply andb_true_iff in H. destruct H as [H10 H]. apply andb_true_iff in H. destruct H as [H11 H12].
  assert (Hprm : pm_tick_prec (st_params (snd c)) = 4 /\ pm_withdraw_fee (st_params (snd c)) = 0 /\ pm_price_ratio (st_params (snd c)) = P18 / 10).
  { apply andb_true_iff in H7. destruct H7 as [H7 A3]. apply andb_true_iff in H7. destruct H7 as [A1 A2]. apply Z.eqb_eq in A1. apply Z.eqb_eq in A2. apply Z.eqb_eq in A3. auto. }
  split; [destruct (fst c); [discriminate H1|reflexivity]|]. split; [exact (all_above_ok _ H2)|]. split; [exact Hprm|].
  split; [destruct (get_pool (snd c) 1) as [p|] eqn:G; [|discriminate H8]; exists p; split; [reflexivity|]; apply negb_true_iff in H8; split; [exact H8|exact (only_basic_ok _ H3 1 p G H8)]|].
  split; [destruct (get_pair (snd c) 1) as [pr|] eqn:G; [|discriminate H9]; exists pr; split; [reflexivity|]; destruct (pr_last_price pr) as [l|] eqn:El; [|discriminate H9]; rewrite (last_prices_ok _ _ H4 1 pr l G El); reflexivity|].
  split; [|split; [exact (only_basic_ok _ H3)|split; [|split; [apply Nat.eqb_eq; exact H10|split; apply Nat.eqb_eq; assumption]]]].
  - intros [k|i].
    + rewrite (C31_supply_constant any_params (Between, ex_start 1) c k); [|exists (ex_start 1); split; [apply ex_genesis; reflexivity|constructor]|exact R].
      change (supply ex_bank (Coin k) < 2 ^ 196). cbn [supply ex_bank]. destruct (_ || _); reflexivity.
    + destruct (Z.eq_dec i 1) as [->|N]; [apply Z.ltb_lt; exact H6|]. destruct (Z_le_gt_dec i 0) as [Lo|Hi].
      * rewrite (no_coin_low any_params _ i Lo Re). reflexivity.
      * pose proof (reach_no_coin any_params _ Re) as X. unfold no_coin_yet in X. apply Z.eqb_eq in H5. rewrite X by (rewrite H5; lia). reflexivity.
  - intros i pr last G El. rewrite (last_prices_ok _ _ H4 i pr last G El). unfold fair_price. destruct Hprm as (-> & _ & ->).
    split; [exists 2, 18; split; [split; reflexivity|split; [discriminate|reflexivity]]|split; [vm_compute; discriminate|vm_compute; reflexivity]].
Qed.
Example C43_no_halt_example : exists s, genesis (sane any_params) (ex_start 1) /\
  runs_where (sane any_params) (fun s => forall i, sells_above_one s i) (Between, ex_start 1) (InBlock, s) /\ (forall i, sells_above_one s i) /\
  (pm_tick_prec (st_params s) = 4 /\ pm_withdraw_fee (st_params s) = 0 /\ pm_price_ratio (st_params s) = P18 / 10) /\
  (exists p, get_pool s 1 = Some p /\ pl_disabled p = false /\ pl_kind p = PBasic) /\ (exists pr, get_pair s 1 = Some pr /\ pr_last_price pr = Some (2 * P18)) /\
  (forall d, supply (st_bank s) d < 2 ^ 196) /\ (forall k p, get_pool s k = Some p -> pl_disabled p = false -> pl_kind p = PBasic) /\
  (forall i pr last, get_pair s i = Some pr -> pr_last_price pr = Some last -> fair_price (st_params s) last) /\
  length (st_deps s) = 1%nat /\ length (st_wds s) = 1%nat /\ length (st_orders s) = 3%nat.
Proof.
  exists (snd (after 1 busy)). split; [apply ex_genesis; reflexivity|].
  assert (W : runs_where (sane any_params) (fun s => forall i, sells_above_one s i) (Between, ex_start 1) (after 1 busy)).
  { apply (play_where _ _ all_above); [exact all_above_ok|constructor|vm_compute; reflexivity]. }
  assert (R : runs (sane any_params) (Between, ex_start 1) (after 1 busy)) by (exact (where_runs _ _ _ _ W)).
  assert (Re : reach (sane any_params) (after 1 busy)) by (exists (ex_start 1); split; [apply ex_genesis; reflexivity|exact R]).
  assert (F : busy_facts (after 1 busy) = true) by (vm_compute; reflexivity).
  destruct (busy_ok (after 1 busy) F Re R) as (E & X). split; [|exact X].
  rewrite (surjective_pairing (after 1 busy)) in W. rewrite E in W. exact W.
Qed.
(** The same history under a precision fixed at four. *)
Definition prec_four (p : params) : Prop := pm_tick_prec p = 4.
Example C43_no_halt_fixed_example : (forall p, prec_four p -> pm_tick_prec p = 4) /\ genesis (sane prec_four) (ex_start 1) /\
  runs_where (sane prec_four) (fun s => forall i, sells_above_one s i) (Between, ex_start 1) (after 1 busy) /\ fst (after 1 busy) = InBlock.
Proof.
  split; [intros p H; exact H|]. split; [|split].
  - destruct (ex_genesis 1 eq_refl) as (p & b & h & t & V & (_ & R) & G & Hh & E). exists p, b, h, t.
    split; [exact V|]. split; [|split; [exact G|split; [exact Hh|exact E]]]. split; [|exact R]. apply (f_equal st_params) in E. cbn [st_params init_state] in E. unfold prec_four. rewrite <- E. reflexivity.
  - apply (play_where _ _ all_above); [exact all_above_ok|constructor|vm_compute; reflexivity].
  - vm_compute. reflexivity.
Qed.
