(** ** C72 and C43: the 256-bit integers and 315-bit decimals of the matching engine *)
From Verif Require Import Base Dec TickModel TickSpec OrderModel MatchModel MatchSpec MatchProofs PoolModel
  KeeperModel KeeperLib KeeperSpec KeeperMicro KeeperInv KeeperHist KeeperBank KeeperTrade CoverSpec KeeperCover KeeperExample Props_Keeper6 Props_Halt
  MatchChk KeeperChk KeeperChkProofs OverflowSpec KeeperChkTotal OverflowExample.

(** Everything proved about the histories of [KeeperSpec] holds for the histories in which every
    operation of the matching engine checks the range of its result. *)
Theorem C72_checked_histories : forall Q c, reach_c Q c -> reach Q c.
Proof. exact reach_c_reach. Qed.
Print Assumptions C72_checked_histories.

(** A batch of pairs with room computes, with the checks, exactly what it computes without them. *)
Theorem C72_no_overflow : forall (Q : params -> Prop) s iter, reach (sane Q) (InBlock, s) -> pm_tick_prec (st_params s) <= 88 ->
  (forall i pr, get_pair s i = Some pr -> roomy s pr) -> is_perm_iter iter -> end_block_c iter s = end_block iter s.
Proof. intros Q s iter Re Hp Ro Hi. exact (end_block_c_same (sane Q) iter s Hi (reach_okp Q _ Re) (fun p H => proj2 H) Hp Ro). Qed.
Print Assumptions C72_no_overflow.
(** When a checked batch ends, it never did anything but what the unchecked one does. *)
Theorem C72_same_effect : forall iter s s', end_block_c iter s = Some s' -> end_block iter s = Some s'.
Proof. exact end_block_c_some. Qed.
Print Assumptions C72_same_effect.

(** C43_no_halt_partial with the checks. *)
Theorem C43_no_halt_checked_partial : forall (Q : params -> Prop) s0 s iter, genesis (sane Q) s0 ->
  runs_where (sane Q) (fun s => forall i, sells_above_one s i) (Between, s0) (InBlock, s) -> (forall i, sells_above_one s i) ->
  pm_tick_prec (st_params s) <= 18 -> pm_withdraw_fee (st_params s) <= P18 ->
  (forall k p, get_pool s k = Some p -> pl_disabled p = false -> pl_kind p = PBasic) ->
  (forall d, supply (st_bank s) d < 2 ^ 196) ->
  (forall i pr last, get_pair s i = Some pr -> pr_last_price pr = Some last -> fair_price (st_params s) last) ->
  (forall i pr, get_pair s i = Some pr -> roomy s pr) ->
  is_perm_iter iter -> end_block_c iter s <> None.
Proof.
  intros Q s0 s iter G R Ab H18 Fee Bo Bs Fp Ro Hi.
  rewrite (C72_no_overflow Q s iter); [exact (C43_no_halt_partial Q s0 s iter G R Ab H18 Fee Bo Bs Fp Hi)| |lia|exact Ro|exact Hi].
  exists s0. split; [exact G|exact (where_runs _ _ _ _ R)].
Qed.
Print Assumptions C43_no_halt_checked_partial.

(** With the default parameters: after a trade at price 10^38, an accepted sell of 7 * 10^38 coins ten
    percent below that price makes [lastPrice.MulInt(amount)] in PriceDirection (amm/match.go) exceed
    315 bits; the end blocker panics. *)
Theorem C43_overflow_refuted : exists s, reach_c (sane any_params) (InBlock, s) /\ st_params s = ex_params 1 /\ end_block_c idl s = None /\ is_some (end_block idl s) = true.
Proof.
  assert (X : forall o : option config, match o with Some c => whale_facts c | None => false end = true -> (forall c, o = Some c -> reach_c (sane any_params) c /\ st_params (snd c) = ex_params 1) ->
    exists s, reach_c (sane any_params) (InBlock, s) /\ st_params s = ex_params 1 /\ end_block_c idl s = None /\ is_some (end_block idl s) = true).
  { intros [[ph s]|] F H; [|discriminate F]. destruct (H _ eq_refl) as [Re Ep]. cbn [snd] in Ep. unfold whale_facts in F. apply andb_true_iff in F. destruct F as [F1 F]. apply andb_true_iff in F. destruct F as [_ F].
    apply andb_true_iff in F. destruct F as [F2 F3]. cbn [snd] in F2, F3. destruct ph; [discriminate F1|]. exists s. split; [exact Re|]. split; [exact Ep|]. split; [|exact F3]. destruct (end_block_c idl s); [discriminate F2|reflexivity]. }
  assert (F : match play_c (Between, whale_start whale_money) whale2 with Some c => whale_facts c = true /\ st_params (snd c) = ex_params 1 | None => False end) by (vm_compute; split; reflexivity).
  apply (X (play_c (Between, whale_start whale_money) whale2)).
  - destruct (play_c (Between, whale_start whale_money) whale2) as [c|]; [exact (proj1 F)|destruct F].
  - intros c E. split; [apply (whale_reach _ whale_money whale2 c); [vm_compute; discriminate|split; [exact Logic.I|reflexivity]|exact E]|].
    rewrite E in F. exact (proj2 F).
Qed.
Print Assumptions C43_overflow_refuted.

(** A sufficient check of [roomy]. *)
Definition room (P W : Z) (s : state) (pr : pair) : bool :=
  (0 <=? W) && (W <? 2 ^ 195) && (P * W <? 2 ^ 314) && forallb (fun kv => ko_price (snd kv) <=? P) (st_orders s) &&
  match pr_last_price pr with
  | Some last => match price_limits last (pm_price_ratio (st_params s)) (pm_tick_prec (st_params s)) with
      | Ok (lo, hi) => (last <=? P) && (lo <=? hi) && (hi <=? P) && (users_load s (pr_id pr) + pools_load (supply (st_bank s) (pr_quote pr)) (supply (st_bank s) (pr_base pr)) lo <=? W)
      | _ => false end
  | None => false
  end.
Lemma room_ok P W s pr : room P W s pr = true -> roomy s pr.
Proof.
  intros H. unfold room in H. apply andb_true_iff in H. destruct H as [H H5]. apply andb_true_iff in H. destruct H as [H H4]. apply andb_true_iff in H. destruct H as [H H3]. apply andb_true_iff in H. destruct H as [H1 H2].
  apply Z.leb_le in H1. apply Z.ltb_lt in H2, H3. exists P, W. split; [split; [exact H1|exact H2]|]. split; [exact H3|]. split.
  - intros j o G _. apply mget_In in G. rewrite forallb_forall in H4. specialize (H4 _ G). cbn [snd] in H4. apply Z.leb_le in H4. exact H4.
  - destruct (pr_last_price pr) as [last|]; [|discriminate H5]. destruct (price_limits _ _ _) as [[lo hi]| |]; try discriminate H5. exists lo, hi. split; [reflexivity|].
    apply andb_true_iff in H5. destruct H5 as [H5 H6]. apply andb_true_iff in H5. destruct H5 as [H5 H7]. apply andb_true_iff in H5. destruct H5 as [H5 H8]. apply Z.leb_le in H5, H6, H7, H8.
    split; [exact H5|]. split; [split; assumption|exact H6].
Qed.
(** The busy block of [Props_Halt] (a trade, a pool, a deposit, a withdrawal, two open orders) has room;
    so has a pair with 10^30 of each coin traded at price 10^10. *)
Definition busy_room (c : config) : bool := is_in_block c && forallb (fun kv => room (10 ^ 20) (10 ^ 17) (snd c) (snd kv)) (st_pairs (snd c)) && negb (match st_pairs (snd c) with [] => true | _ => false end).
Example C72_no_overflow_example : exists s, reach (sane any_params) (InBlock, s) /\ st_params s = ex_params 1 /\ st_pairs s <> [] /\ (forall i pr, get_pair s i = Some pr -> roomy s pr) /\ is_some (end_block_c idl s) = true.
Proof.
  assert (X : forall c, busy_room c = true -> st_params (snd c) = ex_params 1 -> reach (sane any_params) c -> is_some (end_block_c idl (snd c)) = true ->
    exists s, reach (sane any_params) (InBlock, s) /\ st_params s = ex_params 1 /\ st_pairs s <> [] /\ (forall i pr, get_pair s i = Some pr -> roomy s pr) /\ is_some (end_block_c idl s) = true).
  { intros [ph s] F Ep Re Eb. cbn [snd] in *. unfold busy_room in F. apply andb_true_iff in F. destruct F as [F F3]. apply andb_true_iff in F. destruct F as [F1 F2]. cbn [snd] in F2, F3. destruct ph; [discriminate F1|].
    exists s. split; [exact Re|]. split; [exact Ep|]. split; [intros E; rewrite E in F3; discriminate F3|]. split; [|exact Eb].
    intros i pr G. apply mget_In in G. rewrite forallb_forall in F2. specialize (F2 _ G). cbn [snd] in F2. exact (room_ok _ _ _ _ F2). }
  assert (F : let c := after 1 busy in busy_room c = true /\ st_params (snd c) = ex_params 1 /\ is_some (end_block_c idl (snd c)) = true) by (vm_compute; repeat split).
  destruct F as (F1 & F2 & F3). apply (X (after 1 busy)); [exact F1|exact F2|apply after_reach; reflexivity|exact F3].
Qed.
Definition big1 : list action :=
  [ABegin 5; AMsg (MCreatePair 1 (Coin 1) (Coin 2)); AMsg (MLimitOrder 2 1 Buy (Coin 2) (10 ^ 30) (Coin 1) (10 ^ 10 * P18) (10 ^ 20) 60); AMsg (MLimitOrder 3 1 Sell (Coin 1) (10 ^ 20) (Coin 2) (10 ^ 10 * P18) (10 ^ 20) 60); AEnd;
   ABegin 10; AMsg (MLimitOrder 2 1 Buy (Coin 2) (5 * 10 ^ 29) (Coin 1) (10 ^ 10 * P18) (5 * 10 ^ 19) 60); AMsg (MLimitOrder 3 1 Sell (Coin 1) (10 ^ 30) (Coin 2) (95 * 10 ^ 8 * P18) (10 ^ 30) 60)].
Example C72_big_example : match play_c (Between, whale_start (10 ^ 31)) big1 with
  | Some c => is_in_block c && forallb (fun kv => room (2 * 10 ^ 28) (10 ^ 32) (snd c) (snd kv)) (st_pairs (snd c)) && is_some (end_block_c idl (snd c))
  | None => false end = true.
Proof. vm_compute. reflexivity. Qed.

(** The first batch of a pair, before it has a price. *)
Definition room0 (p W : Z) (s : state) (pr : pair) : bool :=
  (0 <=? W) && (W <? 2 ^ 195) && (p * W <? 2 ^ 314) && forallb (fun kv => ko_price (snd kv) =? p) (st_orders s) && match st_pools s with [] => true | _ => false end &&
  match pr_last_price pr with None => true | Some _ => false end && (users_load s (pr_id pr) <=? W) && (lowest_tick (pm_tick_prec (st_params s)) <=? p) && (p <=? highest_tick (pm_tick_prec (st_params s))).
Lemma room0_ok p W s pr : is_tick (pm_tick_prec (st_params s)) p -> room0 p W s pr = true -> roomy s pr.
Proof.
  intros T H. unfold room0 in H. apply andb_true_iff in H. destruct H as [H H9]. apply andb_true_iff in H. destruct H as [H H8]. apply andb_true_iff in H. destruct H as [H H7]. apply andb_true_iff in H. destruct H as [H H6].
  apply andb_true_iff in H. destruct H as [H H5]. apply andb_true_iff in H. destruct H as [H H4]. apply andb_true_iff in H. destruct H as [H H3]. apply andb_true_iff in H. destruct H as [H1 H2].
  apply Z.leb_le in H1, H7, H8, H9. apply Z.ltb_lt in H2, H3.
  assert (Ep : forall j o, get_order s (pr_id pr) j = Some o -> ko_price o = p) by (intros j o G; apply mget_In in G; rewrite forallb_forall in H4; specialize (H4 _ G); cbn [snd] in H4; apply Z.eqb_eq in H4; exact H4).
  exists p, W. split; [split; [exact H1|exact H2]|]. split; [exact H3|]. split; [intros j o G _; rewrite (Ep j o G); apply Z.le_refl|].
  destruct (pr_last_price pr); [discriminate H6|]. split; [exact H7|]. split; [|intros j o G _; rewrite (Ep j o G); split; [exact T|split; assumption]].
  intros k q G. unfold get_pool in G. destruct (st_pools s); [discriminate G|discriminate H5].
Qed.
Example C72_first_example : match play_c (Between, whale_start (10 ^ 31)) (firstn 4 big1) with
  | Some c => is_in_block c && forallb (fun kv => room0 (10 ^ 10 * P18) (10 ^ 31) (snd c) (snd kv)) (st_pairs (snd c)) && is_some (end_block_c idl (snd c))
  | None => false end = true /\ is_tick 4 (10 ^ 10 * P18).
Proof. split; [vm_compute; reflexivity|]. exists 10000, 24. split; [split; reflexivity|]. split; [discriminate|vm_compute; reflexivity]. Qed.
