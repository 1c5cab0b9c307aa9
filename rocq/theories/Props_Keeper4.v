(** Properties C47, C49, C50: bulk transfers, placing orders.  See Props_Keeper.v for [reach (sane Q)]. *)
From Verif Require Import Base Dec TickModel TickSpec OrderModel MatchModel PoolModel KeeperModel KeeperLib KeeperSpec KeeperSpec2 KeeperMicro KeeperBank KeeperSteps KeeperBulk KeeperTrade KeeperHist KeeperPlace MatchProofs KeeperExample.

(** ** C47: bulk transfers. *)

(** The transfers executed on their own, in order. *)
Fixpoint one_by_one (b : bank) (l : list (addr * addr * coins)) : option bank :=
  match l with [] => Some b | (f, t, cs) :: r => match send b f t cs with Some b1 => one_by_one b1 r | None => None end end.
Definition all_valid (l : list (addr * addr * coins)) : Prop := Forall (fun e => valid_coins (snd e) = true) l.
(** What the transfers take from account [a] in coin [d]. *)
Definition total_out (l : list (addr * addr * coins)) (a : addr) (d : denom) : Z :=
  sumZ (map (fun e => if addr_eqb a (fst (fst e)) then amount_of (snd e) d else 0) l).
(** No account both pays and receives. *)
Definition one_directional (l : list (addr * addr * coins)) : Prop := forall e e', In e l -> In e' l -> fst (fst e) <> snd (fst e').

Lemma one_by_one_run l : forall b, one_by_one b l = bulk_run b l.
Proof. induction l as [|[[f t] cs] l IH]; intros b; cbn; [reflexivity|]. destruct (send b f t cs); auto. Qed.
Lemma all_queued l : all_valid l -> filter queued l = l.
Proof. intros V. induction V as [|e l H V IH]; cbn [filter]; [reflexivity|]. unfold queued at 1. rewrite H, IH. reflexivity. Qed.

(** Whenever both are possible, the queued execution and the individual one end with the same balances and supplies. *)
Theorem C47_same_balances : forall b l b1 b2, all_valid l -> bulk_run b (queue_all l) = Some b1 -> one_by_one b l = Some b2 ->
  (forall a d, bal b1 a d = bal b2 a d) /\ forall d, supply b1 d = supply b2 d.
Proof.
  intros b l b1 b2 V H1 H2. rewrite one_by_one_run in H2. destruct (bulk_run_spec _ _ _ H1) as (_ & A1 & A2). destruct (bulk_run_spec _ _ _ H2) as (_ & B1 & B2).
  destruct (queue_all_spec l) as (_ & C1 & C2). rewrite (all_queued l V) in C1, C2. split; [intros a d; rewrite A1, B1, C1, C2; reflexivity|intros d; rewrite A2, B2; reflexivity].
Qed.
Print Assumptions C47_same_balances.

(** It never overdraws: from non negative balances only non negative balances result. *)
Theorem C47_never_overdraws : forall b l b1, (forall a d, 0 <= bal b a d) -> bulk_run b (queue_all l) = Some b1 -> forall a d, 0 <= bal b1 a d.
Proof.
  intros b l. generalize (queue_all l). clear l. intros q. revert b. induction q as [|[[f t] cs] q IH]; intros b b1 N H; cbn in H; [injection H as <-; exact N|].
  destruct (send b f t cs) as [b2|] eqn:E; [|discriminate H]. exact (IH b2 b1 (moved_nonneg _ _ _ _ _ N E) H).
Qed.
Print Assumptions C47_never_overdraws.

(** When no account both pays and receives (every use of the module: reserves to escrow, escrow to
    traders, ...) the queued execution succeeds exactly when the individual one does, which is
    exactly when no payer pays more than it has.  Missing from the full property: queues in
    which an account pays and receives (see the refutation). *)
Theorem C47_succeeds_iff_partial : forall b l, all_valid l -> one_directional l -> (forall a d, 0 <= bal b a d) ->
  ((exists b1, bulk_run b (queue_all l) = Some b1) <-> forall a d, total_out l a d <= bal b a d) /\
  ((exists b2, one_by_one b l = Some b2) <-> forall a d, total_out l a d <= bal b a d).
Proof.
  intros b l V O N. destruct (queue_all_spec l) as (QV & C1 & _). rewrite (all_queued l V) in C1. split.
  - rewrite (bulk_run_iff (queue_all l) b QV); [|clear N C1 QV|exact N].
    + split; intros H a d; specialize (H a d); rewrite C1 in *; exact H.
    + intros e e' H1 H2. assert (F : forall x, In x (queue_all l) -> In (fst (fst x)) (map (fun e => fst (fst e)) l) /\ In (snd (fst x)) (map (fun e => snd (fst e)) l)).
      { apply Forall_forall. apply (queue_all_ends (fun f t => In f (map (fun e => fst (fst e)) l) /\ In t (map (fun e => snd (fst e)) l)) l). apply Forall_forall. intros x Hx. split; [exact (in_map (fun e => fst (fst e)) l x Hx)|exact (in_map (fun e => snd (fst e)) l x Hx)]. }
      destruct (F e H1) as [X _]. destruct (F e' H2) as [_ Y]. apply in_map_iff in X, Y. destruct X as (x & <- & X). destruct Y as (y & <- & Y). exact (O x y X Y).
  - rewrite one_by_one_run. exact (bulk_run_iff l b V O N).
Qed.
Print Assumptions C47_succeeds_iff_partial.
Definition bulk_ex : list (addr * addr * coins) :=
  [(User 1, User 2, [(Coin 1, 5); (Coin 2, 7)]); (User 3, User 2, [(Coin 1, 1)]); (User 1, User 2, [(Coin 2, 3)]); (User 1, User 4, [(Coin 1, 2)])].
Example C47_example : all_valid bulk_ex /\ one_directional bulk_ex /\ length (queue_all bulk_ex) = 3%nat /\ is_some (bulk_run ex_bank (queue_all bulk_ex)) = true.
Proof.
  split; [repeat constructor|]. split; [|vm_compute; split; reflexivity].
  intros e e' H1 H2. cbn in H1, H2. destruct H1 as [<-|[<-|[<-|[<-|[]]]]], H2 as [<-|[<-|[<-|[<-|[]]]]]; discriminate.
Qed.

(** Otherwise merging can make an impossible sequence succeed and a possible one fail. *)
Definition merge_bank : bank := mkBank (fun a d => match a, d with User 1, Coin 1 => 5 | User 3, Coin 1 => 1 | User 4, Coin 1 => 4 | _, _ => 0 end) (fun d => match d with Coin 1 => 10 | _ => 0 end).
Theorem C47_order_matters_refuted :
  (exists l, all_valid l /\ is_some (bulk_run merge_bank (queue_all l)) = true /\ one_by_one merge_bank l = None) /\
  (exists l, all_valid l /\ bulk_run merge_bank (queue_all l) = None /\ is_some (one_by_one merge_bank l) = true).
Proof.
  split.
  - exists [(User 1, User 2, [(Coin 1, 1)]); (User 2, User 9, [(Coin 1, 5)]); (User 1, User 2, [(Coin 1, 4)])]. split; [repeat constructor|vm_compute; split; reflexivity].
  - exists [(User 3, User 2, [(Coin 1, 1)]); (User 4, User 3, [(Coin 1, 4)]); (User 3, User 2, [(Coin 1, 4)])]. split; [repeat constructor|vm_compute; split; reflexivity].
Qed.
Print Assumptions C47_order_matters_refuted.

(** ** C49: placing an order.  [limit_terms], [market_terms], [order_placed] are in KeeperSpec2. *)

(** A limit order is accepted exactly when its terms are acceptable: known pair and matching coins,
    price within the limits, amounts in range, lifespan within the maximum, coins available. *)
Theorem C49_limit_accepted_iff : forall Q s u i d od offer dd price amt l, reach (sane Q) (InBlock, s) ->
  (deliver s (MLimitOrder u i d od offer dd price amt l) <> None <-> exists pr rp, limit_terms s u i d od offer dd price amt l pr rp).
Proof.
  intros Q s u i d od offer dd price amt l R. split.
  - intros H. unfold deliver in H. destruct (validate_basic _) eqn:V; [|congruence]. cbn [handle] in H. destruct (place_order _ _ _ _ _ _ _ _ _ _ _) as [s'|] eqn:E; [|congruence].
    destruct (limit_place Q s TLimit u i d od offer dd price amt l s' R ltac:(discriminate) V E) as (pr & rp & A & _). eauto.
  - intros (pr & rp & A). destruct (limit_accept Q s TLimit u i d od offer dd price amt l pr rp R ltac:(discriminate) A) as (V & s' & E). unfold deliver. rewrite V. cbn [handle]. rewrite E. discriminate.
Qed.
Print Assumptions C49_limit_accepted_iff.

(** Its whole effect is the new order at the rounded price, paid for by the orderer: exactly the offer
    coin of that price and amount, never more than the message offered. *)
Theorem C49_limit_effect : forall Q s u i d od offer dd price amt l s', reach (sane Q) (InBlock, s) -> deliver s (MLimitOrder u i d od offer dd price amt l) = Some s' ->
  exists pr rp o, limit_terms s u i d od offer dd price amt l pr rp /\ order_placed s s' pr o /\ ko_offer o <= offer /\
    ko_type o = TLimit /\ ko_owner o = User u /\ ko_dir o = d /\ ko_price o = rp /\ ko_amt o = amt /\ ko_expire o = st_time s + l.
Proof.
  intros Q s u i d od offer dd price amt l s' R H. unfold deliver in H. destruct (validate_basic _) eqn:V; [|discriminate H]. cbn [handle] in H.
  destruct (limit_place Q s TLimit u i d od offer dd price amt l s' R ltac:(discriminate) V H) as (pr & rp & A & B & C). exists pr, rp, (new_korder s TLimit u pr d rp amt l). cbn [with_mm] in B. auto 10.
Qed.
Print Assumptions C49_limit_effect.

(** Market making orders: the same, while fewer than the maximum are live. *)
Theorem C49_mm_order : forall Q s u i d od offer dd price amt l, reach (sane Q) (InBlock, s) ->
  (deliver s (MMMOrder u i d od offer dd price amt l) <> None <-> st_mm s (User u) i < pm_max_mm (st_params s) /\ exists pr rp, limit_terms s u i d od offer dd price amt l pr rp) /\
  forall s', deliver s (MMMOrder u i d od offer dd price amt l) = Some s' ->
    exists pr rp o, limit_terms s u i d od offer dd price amt l pr rp /\ order_placed s s' pr o /\ ko_offer o <= offer /\
      ko_type o = TMM /\ ko_owner o = User u /\ ko_dir o = d /\ ko_price o = rp /\ ko_amt o = amt /\ ko_expire o = st_time s + l.
Proof.
  intros Q s u i d od offer dd price amt l R.
  assert (E : deliver s (MMMOrder u i d od offer dd price amt l) = if validate_basic (MLimitOrder u i d od offer dd price amt l) then mm_order s u i d od offer dd price amt l else None) by reflexivity.
  rewrite E. unfold mm_order. cbn zeta. split.
  - destruct (Z.leb_spec (pm_max_mm (st_params s)) (st_mm s (User u) i)) as [L|L].
    { split; [intros H; destruct (validate_basic _); congruence|intros [H _]; lia]. }
    split.
    + intros H. destruct (validate_basic _) eqn:V; [|congruence]. destruct (place_order _ _ _ _ _ _ _ _ _ _ _) as [s'|] eqn:Ep; [|congruence].
      destruct (limit_place Q s TMM u i d od offer dd price amt l s' R ltac:(discriminate) V Ep) as (pr & rp & A & _). eauto.
    + intros [_ (pr & rp & A)]. destruct (limit_accept Q s TMM u i d od offer dd price amt l pr rp R ltac:(discriminate) A) as (V & s' & Ep). rewrite V, Ep. discriminate.
  - intros s' H. destruct (validate_basic _) eqn:V; [|discriminate H]. destruct (_ <=? _); [discriminate H|]. destruct (place_order _ _ _ _ _ _ _ _ _ _ _) as [s2|] eqn:Ep; [|discriminate H]. injection H as <-.
    destruct (limit_place Q s TMM u i d od offer dd price amt l s2 R ltac:(discriminate) V Ep) as (pr & rp & A & B & C). exists pr, rp, (new_korder s TMM u pr d rp amt l). cbn [with_mm] in B. auto 10.
Qed.
Print Assumptions C49_mm_order.

(** Market orders. *)
Theorem C49_market_order : forall Q s u i d od offer dd amt l, reach (sane Q) (InBlock, s) ->
  (deliver s (MMarketOrder u i d od offer dd amt l) <> None <-> exists pr last target rp, market_terms s u i d od offer dd amt l pr last target rp) /\
  forall s', deliver s (MMarketOrder u i d od offer dd amt l) = Some s' ->
    exists pr last target rp o, market_terms s u i d od offer dd amt l pr last target rp /\ order_placed s s' pr o /\ ko_offer o <= offer /\
      ko_type o = TMarket /\ ko_owner o = User u /\ ko_dir o = d /\ ko_price o = rp /\ ko_amt o = amt /\ ko_expire o = st_time s + l.
Proof.
  intros Q s u i d od offer dd amt l R. split; [split|].
  - intros H. destruct (deliver _ _) as [s'|] eqn:E; [|congruence]. destruct (market_place Q s u i d od offer dd amt l s' R E) as (pr & last & target & rp & A & _). eauto.
  - intros (pr & last & target & rp & A). destruct (market_accept Q s u i d od offer dd amt l pr last target rp R A) as (s' & ->). discriminate.
  - intros s' E. destruct (market_place Q s u i d od offer dd amt l s' R E) as (pr & last & target & rp & A & B). exists pr, last, target, rp, (new_korder s TMarket u pr d rp amt l).
    split; [exact A|]. split; [exact B|]. split; [apply A|]. repeat split.
Qed.
Print Assumptions C49_market_order.

(** In particular: too long a lifespan, a price outside the limits, too small an amount or value are rejected. *)
Theorem C49_rejections : forall Q s u i d od offer dd price amt l, reach (sane Q) (InBlock, s) ->
  pm_max_lifespan (st_params s) < l \/ amt < min_coin_amount \/ (exists pr, get_pair s i = Some pr /\ ~ price_allowed s pr price) \/
    (d = Buy /\ price * amt < of_int min_coin_amount) \/ bal (st_bank s) (User u) od < offer ->
  deliver s (MLimitOrder u i d od offer dd price amt l) = None.
Proof.
  intros Q s u i d od offer dd price amt l R H. destruct (deliver _ _) as [s'|] eqn:E; [|reflexivity]. exfalso.
  assert (X : deliver s (MLimitOrder u i d od offer dd price amt l) <> None) by congruence. apply (C49_limit_accepted_iff Q) in X; [|assumption].
  destruct X as (pr & rp & G & _ & _ & P & PA & Tk & A1 & A2 & A3 & A4 & [B1 B2] & L). assert (0 < min_coin_amount) by reflexivity. destruct H as [H|[H|[(pr' & G' & H)|[(-> & H)|H]]]]; try lia.
  - apply H. assert (pr' = pr) as -> by congruence. assumption.
  - destruct Tk as (_ & T & _). nia.
Qed.
Print Assumptions C49_rejections.

Example C49_example : reach (sane any_params) (after 1 trade3) /\ fst (after 1 trade3) = InBlock /\
  is_some (deliver (snd (after 1 trade3)) (MLimitOrder 2 1 Buy (Coin 2) 90000 (Coin 1) (P18 * 4912345 / 10000000) 100000 3600)) = true /\
  is_some (deliver (snd (after 1 trade3)) (MLimitOrder 2 1 Buy (Coin 2) 90000 (Coin 1) (P18 * 7 / 10) 100000 3600)) = false /\
  is_some (deliver (snd (after 1 trade3)) (MLimitOrder 2 1 Buy (Coin 2) 90000 (Coin 1) (P18 / 2) 100000 90000)) = false /\
  is_some (deliver (snd (after 1 trade3)) (MMMOrder 2 1 Sell (Coin 1) 90000 (Coin 2) (P18 / 2) 90000 3600)) = true /\
  is_some (deliver (snd (after 1 trade3)) (MMarketOrder 2 1 Buy (Coin 2) 90000 (Coin 1) 100000 3600)) = true.
Proof. split; [apply after_reach; reflexivity|]. vm_compute. repeat split. Qed.

(** ** C50: market orders. *)

(** The price of an accepted market order is a tick; a buy order's is the highest tick not above
    last * (1 + ratio), a sell order's the lowest tick not below last * (1 - ratio), up to half of
    the last decimal digit.  Hence if the last price is itself a tick, a market buy order never
    has a price below it and a market sell order never above it. *)
Theorem C50_market_price : forall Q s u i d od offer dd amt l s', reach (sane Q) (InBlock, s) -> deliver s (MMarketOrder u i d od offer dd amt l) = Some s' ->
  exists pr last o, get_pair s i = Some pr /\ pr_last_price pr = Some last /\ get_order s' i (pr_last_order pr + 1) = Some o /\
    let ratio := pm_price_ratio (st_params s) in let prec := pm_tick_prec (st_params s) in
    is_tick prec (ko_price o) /\
    match d with
    | Buy => 2 * ko_price o * P18 <= 2 * last * (P18 + ratio) + P18 /\ forall t, is_tick prec t -> t * P18 <= last * (P18 + ratio) -> t <= ko_price o
    | Sell => 2 * last * (P18 - ratio) - P18 <= 2 * ko_price o * P18 /\ forall t, is_tick prec t -> last * (P18 - ratio) <= t * P18 -> ko_price o <= t
    end.
Proof.
  intros Q s u i d od offer dd amt l s' R E. destruct (market_place Q s u i d od offer dd amt l s' R E) as (pr & last & target & rp & A & B). exists pr, last, (new_korder s TMarket u pr d rp amt l).
  pose proof A as (G & _ & _ & Pl & _). split; [exact G|]. split; [exact Pl|]. assert (Ei : pr_id pr = i) by (eapply get_pair_id; [exact (KeeperBlock.reach_str Q _ R)|exact G]). split.
  - destruct B as (_ & _ & _ & _ & _ & _ & _ & _ & _ & _ & _ & _ & _ & _ & B & _). rewrite B, Ei. cbn [new_korder ko_id]. rewrite !Z.eqb_refl. reflexivity.
  - exact (market_band Q s u i d od offer dd amt l pr last target rp R A).
Qed.
Print Assumptions C50_market_price.
Theorem C50_needs_last_price : forall s u i d od offer dd amt l pr, get_pair s i = Some pr -> pr_last_price pr = None -> deliver s (MMarketOrder u i d od offer dd amt l) = None.
Proof.
  intros s u i d od offer dd amt l pr G L. unfold deliver. destruct (validate_basic _); [|reflexivity]. cbn [handle]. unfold place_order. cbn zeta. destruct (_ <? _); [reflexivity|]. destruct (_ <? _); [reflexivity|].
  rewrite G, L. reflexivity.
Qed.
Print Assumptions C50_needs_last_price.
Example C50_example : reach (sane any_params) (after 1 trade3) /\
  (match deliver (snd (after 1 trade3)) (MMarketOrder 2 1 Sell (Coin 1) 90000 (Coin 2) 90000 3600) with
   | Some s' => match get_order s' 1 6 with Some o => ko_price o | None => 0 end | None => 0 end) = P18 * 459 / 1000 /\
  (match get_pair (snd (after 1 trade3)) 1 with Some pr => pr_last_price pr | None => None end) = Some (P18 * 51 / 100) /\
  is_some (deliver (snd (after 1 trade1)) (MMarketOrder 2 1 Sell (Coin 1) 90000 (Coin 2) 90000 3600)) = false.
Proof. split; [apply after_reach; reflexivity|]. vm_compute. repeat split. Qed.
