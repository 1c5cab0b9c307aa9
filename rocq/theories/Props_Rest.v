(** Property C88: orders that do not cross rest. *)
From Verif Require Import Base Dec DecProofs TickModel OrderModel MatchModel MatchSpec OrderProofs MatchProofs MatchTop PoolModel PoolProofs KeeperModel KeeperLib KeeperSpec KeeperSpec2 LedgerSpec KeeperMicro KeeperBank KeeperInv KeeperHist KeeperSettle KeeperBlock KeeperTrade IsoSpec GenesisProofs PoolLedgerSpec QueryModel KeeperRest KeeperExample Props_Keeper5 Props_PoolLedger Props_Cross Props_Frozen.

(** ** The engine *)
(** When every buy order is priced below every sell order, matching around any last price and matching at any
    single price match nothing and change no order. *)
Theorem C88_match : forall iter h last, is_perm_iter iter -> Forall wf_order h -> 0 < last ->
  (forall b v, In b h -> In v h -> o_dir b = Buy -> o_dir v = Sell -> o_price b < o_price v) ->
  match_book iter h (new_order_book h) last = Some (h, last, 0, false) /\ forall p, 0 < p -> match_single iter h (new_order_book h) p = Some None.
Proof. intros iter h last Hi Hf Hl A. split; [exact (apart_book iter Hi h last Hf Hl A)|intros p Hp; exact (apart_single iter Hi h p Hf Hp A)]. Qed.
Print Assumptions C88_match.

(** Read the other way: whenever a matching trades, a buy order was priced at or above a sell order. *)
Lemma cross_or_apart (h : list order) : (exists b v, In b h /\ In v h /\ o_dir b = Buy /\ o_dir v = Sell /\ o_price v <= o_price b) \/ apart h.
Proof.
  destruct (existsb (fun b => existsb (fun v => match o_dir b, o_dir v with Buy, Sell => o_price v <=? o_price b | _, _ => false end) h) h) eqn:E.
  - left. apply existsb_exists in E. destruct E as (b & Hb & E). apply existsb_exists in E. destruct E as (v & Hv & E). exists b, v. destruct (o_dir b), (o_dir v); try discriminate E. repeat split; try assumption. lia.
  - right. intros b v Hb Hv Db Dv. destruct (Z_lt_le_dec (o_price b) (o_price v)) as [L|L]; [exact L|exfalso]. apply not_true_iff_false in E. apply E.
    apply existsb_exists. exists b. split; [exact Hb|]. apply existsb_exists. exists v. split; [exact Hv|]. rewrite Db, Dv. lia.
Qed.
Theorem C88_trade_needs_cross : forall iter h last h' mp qd, is_perm_iter iter -> Forall wf_order h -> 0 < last ->
  match_book iter h (new_order_book h) last = Some (h', mp, qd, true) \/ (exists p, 0 < p /\ match_single iter h (new_order_book h) p = Some (Some (h', qd))) ->
  exists b v, In b h /\ In v h /\ o_dir b = Buy /\ o_dir v = Sell /\ o_price v <= o_price b.
Proof.
  intros iter h last h' mp qd Hi Hf Hl H. destruct (cross_or_apart h) as [X|A]; [exact X|exfalso]. destruct (C88_match iter h last Hi Hf Hl A) as [B C].
  destruct H as [H|(p & Hp & H)]; [rewrite B in H; discriminate H|rewrite (C p Hp) in H; discriminate H].
Qed.
Print Assumptions C88_trade_needs_cross.

(** A sell at 3 over a buy at 2 rests; over a buy at 3 it trades. *)
Example C88_match_example : let h := [mk Buy (2 * P18) 15 1 1; mk Sell (3 * P18) 10 1 2] in let g := [mk Buy (3 * P18) 15 1 1; mk Sell (3 * P18) 10 1 2] in
  match_book idl h (new_order_book h) (2 * P18) = Some (h, 2 * P18, 0, false) /\ match match_book idl g (new_order_book g) (2 * P18) with Some (_, _, _, b) => b = true | None => False end.
Proof. vm_compute. auto. Qed.

(** ** A batch *)
(** Around the price [pp]: the live buy orders of the pair are priced at [pp] or below, the sell orders at
    [pp] or above, none of the first reaches one of the second, and every pool of the pair for which the
    pool query shows a price shows [pp]. *)
Definition rests_at (s : state) (i : Z) (pp : dec) : Prop :=
  (forall j o, get_order s i j = Some o -> live o = true -> match ko_dir o with Buy => ko_price o <= pp | Sell => pp <= ko_price o end) /\
  (forall j k b v, get_order s i j = Some b -> get_order s i k = Some v -> live b = true -> live v = true -> ko_dir b = Buy -> ko_dir v = Sell -> ko_price b < ko_price v) /\
  (forall n v x, q_pool s n = Some v -> pl_pair (pv_pool v) = i -> pv_price v = Some x -> x = pp).

Lemma price_any_supply p rx ry k ap : amm_pool p rx ry k = Ok ap -> exists ap0, amm_pool p rx ry 0 = Ok ap0 /\ pool_price ap0 = pool_price ap.
Proof.
  unfold amm_pool. destruct (pl_kind p) as [|a b]; [intros E; injection E as <-; eexists; split; reflexivity|]. unfold new_ranged_pool, set_balances.
  destruct (derive_translation rx ry a b) as [t| |]; cbn [rbind]; [|discriminate|discriminate]. destruct (c_add (of_int rx) (fst t)) as [x| |]; cbn [rbind]; [|discriminate|discriminate].
  destruct (c_add (of_int ry) (snd t)) as [y| |]; cbn [rbind]; [|discriminate|discriminate]. intros E. injection E as <-. eexists. split; reflexivity.
Qed.
Lemma rests_at_rests (Q : ctl) s i pr pp : inv Q s -> get_pair s i = Some pr -> rests_at s i pp -> rests s i pr pp.
Proof.
  intros I Gp (A & B & C). split; [exact A|split; [exact B|]]. intros n p ap x G Pi D Ap Ex. destruct (price_any_supply _ _ _ _ _ Ap) as (ap0 & A0 & E0).
  destruct (i_pools _ (v_str _ _ I) _ _ G) as (Ek & Rn & _). injection Ek as En.
  assert (Eq : q_pool s n = Some (mkPoolView p (pr_quote pr, pool_rx s p pr) (pr_base pr, pool_ry s p pr) (pool_ps s p) (Some x))).
  { unfold q_pool. destruct (Z.eqb_spec n 0) as [E|_]; [lia|]. rewrite G. unfold pool_response. rewrite Pi, Gp, D. unfold pool_rx, pool_ry. rewrite <- En. unfold reserve in A0. rewrite A0. cbn [of_res]. rewrite E0, Ex. reflexivity. }
  exact (C n _ x Eq Pi eq_refl).
Qed.

(** Such a batch matches nothing of the pair: its last price stays, every live order keeps its open amount,
    its offered coins and what it received and only its status changes - it expires if its time is over or
    its rest too small - and the reserves of the pools of the pair without waiting requests stay. *)
Theorem C88_batch : forall (Q : params -> Prop) s s' i pr pp, (forall x, Q x -> plain_collectors x) -> batch_runs Q s s' -> get_pair s i = Some pr -> rests_at s i pp ->
  (exists pr', get_pair s' i = Some pr' /\ pr_last_price pr' = pr_last_price pr) /\
  (forall j o, get_order s i j = Some o -> live o = true -> exists o', get_order s' i j = Some o' /\
     (must_end (st_time s) o /\ o' = ko_with_status o OExpired \/ ~ must_end (st_time s) o /\ o' = ko_with_status o (match ko_status o with ONotExecuted => ONotMatched | st => st end))) /\
  (forall n p, get_pool s n = Some p -> pl_pair p = i -> nothing_waiting s n -> forall d, reserve s' n d = reserve s n d).
Proof.
  intros Q s s' i pr pp HC (R & HB & iter & Hi & HE) Gp H. pose proof (proj1 (okp_st (sane Q) STrade s) (reach_okp Q _ R)) as I.
  destruct (batch_rests Q iter s s' i pr pp HC Hi R HB HE Gp (rests_at_rests _ s i pr pp I Gp H)) as (A & B & C). split; [exact A|]. split; [exact B|].
  intros n p G Pi [W1 W2]. exact (C n p G Pi W1 W2).
Qed.
Print Assumptions C88_batch.

(** A pair with the last price 0.5, a pool created at 0.5, a buy at 0.49 and a sell at 0.51; and the same
    without the trade that set the last price. *)
Definition rest_tail : list action :=
  [AMsg (MCreatePool 1 1 [(Coin 1, 100000000); (Coin 2, 50000000)]); AMsg (MLimitOrder 2 1 Buy (Coin 2) 49000 (Coin 1) (P18 * 49 / 100) 100000 3600); AMsg (MLimitOrder 1 1 Sell (Coin 1) 100000 (Coin 2) (P18 * 51 / 100) 100000 3600)].
Definition rest1 : list action := [ABegin 5; AMsg (MCreatePair 1 (Coin 1) (Coin 2))] ++ rest_tail.
Definition rest2 : list action :=
  [ABegin 5; AMsg (MCreatePair 1 (Coin 1) (Coin 2)); AMsg (MLimitOrder 1 1 Sell (Coin 1) 100000 (Coin 2) half 100000 0); AMsg (MLimitOrder 2 1 Buy (Coin 2) 50000 (Coin 1) half 100000 0); AEnd; ABegin 10] ++ rest_tail.
Definition rest_check (s : state) (pp : dec) : bool :=
  forallb (fun kv => negb (live (snd kv)) || match ko_dir (snd kv) with Buy => ko_price (snd kv) <=? pp | Sell => pp <=? ko_price (snd kv) end) (st_orders s) &&
  forallb (fun kb => forallb (fun kv => negb (live (snd kb)) || negb (live (snd kv)) || match ko_dir (snd kb), ko_dir (snd kv) with Buy, Sell => ko_price (snd kb) <? ko_price (snd kv) | _, _ => true end) (st_orders s)) (st_orders s) &&
  forallb (fun kp => match pool_response s (snd kp) with Some v => match pv_price v with Some x => x =? pp | None => true end | None => true end) (st_pools s).
Lemma rest_check_ok s i pp : rest_check s pp = true -> rests_at s i pp.
Proof.
  unfold rest_check. rewrite !andb_true_iff, !forallb_forall. intros [[A B] C]. split; [|split].
  - intros j o G L. specialize (A _ (mget_In _ _ _ G)). cbn [snd] in A. rewrite L in A. destruct (ko_dir o); cbn in A; lia.
  - intros j k b v Gb Gv Lb Lv Db Dv. specialize (B _ (mget_In _ _ _ Gb)). rewrite forallb_forall in B. specialize (B _ (mget_In _ _ _ Gv)). cbn [snd] in B. rewrite Lb, Lv, Db, Dv in B. cbn in B. lia.
  - intros n v x E _ Ex. unfold q_pool in E. destruct (n =? 0); [discriminate E|]. destruct (get_pool s n) as [p|] eqn:G; [|discriminate E]. specialize (C _ (mget_In _ _ _ G)). cbn [snd] in C. rewrite E, Ex in C. lia.
Qed.
Definition rest_facts (s : state) (last : option dec) : bool :=
  rest_check s half &&
  match get_pair s 1, q_pool s 1, end_block idl s with
  | Some pr, Some v, Some s' =>
      match pr_last_price pr, last with Some a, Some b => a =? b | None, None => true | _, _ => false end && match pv_price v with Some x => x =? half | None => false end &&
      (Nat.eqb (length (filter (fun kv => live (snd kv)) (st_orders s))) 2) && (Nat.eqb (length (filter (fun kv => live (snd kv)) (st_orders s'))) 2) && (st_height s mod pm_batch_size (st_params s) =? 0)
  | _, _, _ => false
  end.
Lemma rest_facts_ok (Q : params -> Prop) s last : reach (sane Q) (InBlock, s) -> rest_facts s last = true -> exists s' pr, batch_runs Q s s' /\ get_pair s 1 = Some pr /\ rests_at s 1 half.
Proof.
  intros R H. unfold rest_facts in H. apply andb_true_iff in H. destruct H as [H1 H]. destruct (get_pair s 1) as [pr|]; [|discriminate H]. destruct (q_pool s 1) as [v|]; [|discriminate H]. destruct (end_block idl s) as [s'|] eqn:E; [|discriminate H].
  rewrite !andb_true_iff in H. exists s', pr. split; [split; [exact R|split; [lia|exists idl; split; [exact idl_perm|exact E]]]|]. split; [reflexivity|]. apply rest_check_ok. exact H1.
Qed.
Lemma plain_in_block l : fst (after 1 l) = InBlock -> reach (sane plain_collectors) (InBlock, snd (after 1 l)).
Proof. intros E. rewrite <- E, <- surjective_pairing. exact (plain_start l). Qed.
Example C88_batch_example :
  (exists s' pr, batch_runs plain_collectors (snd (after 1 rest1)) s' /\ get_pair (snd (after 1 rest1)) 1 = Some pr /\ rests_at (snd (after 1 rest1)) 1 half) /\
  (exists s' pr, batch_runs plain_collectors (snd (after 1 rest2)) s' /\ get_pair (snd (after 1 rest2)) 1 = Some pr /\ rests_at (snd (after 1 rest2)) 1 half).
Proof.
  assert (F : let c := after 1 rest1 in fst c = InBlock /\ rest_facts (snd c) None = true) by (vm_compute; repeat split).
  assert (G : let c := after 1 rest2 in fst c = InBlock /\ rest_facts (snd c) (Some half) = true) by (vm_compute; repeat split).
  destruct F as [F1 F2]. destruct G as [G1 G2]. split.
  - apply (rest_facts_ok _ _ None); [apply plain_in_block; exact F1|exact F2].
  - apply (rest_facts_ok _ _ (Some half)); [apply plain_in_block; exact G1|exact G2].
Qed.
