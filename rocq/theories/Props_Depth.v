(** Properties C51, C57: the order book query. *)
From Verif Require Import Base Dec TickModel TickProofs OrderModel MatchModel MatchSpec OrderProofs MatchProofs MatchTop DepthModel DepthSpec DepthProofs DepthBook.
From Coq Require Import Sorted Permutation.

(** ** C51: the rows of the displayed books. *)

(** [c] asked for the book [d]: units of [g * 10^power]; sells rounded up, buys rounded down to the unit (the key of a buy
    price is its negation), every row holding all that is displayed in its unit, the best ones first (sells are listed
    upside down), up to the price limits. *)
Definition grouped (cb cs : Z -> Z) (lo hi g : Z) (c : config) (d : display) : Prop :=
  ds_unit d = g * 10 ^ Z.max 0 (cf_power c) /\ 0 < ds_unit d /\
  unit_rows cs hi (ds_unit d) (cf_rows c) (rev (ds_sells d)) /\
  unit_rows (fun k => cb (- k)) (- Z.max lo 0) (ds_unit d) (cf_rows c) (map (fun r => (- fst r, snd r)) (ds_buys d)).

(** For every set of orders, limits and requested books.  Missing from the full claim: units beyond the price limits
    are cut off even when they contain prices within the limits, see [C51_refuted]. *)
Theorem C51_rows_partial : forall fuel h lo hi prec cfs r, Forall wf_order h -> 0 <= prec -> query_book fuel h lo hi prec cfs = Some r ->
  exists m, exec_volume h m /\
  match rs_base r with
  | None => rs_books r = [] /\ forall p, shown_buys h m p = 0 /\ shown_sells h m p = 0
  | Some base =>
      exists sorted g, Permutation cfs sorted /\ StronglySorted (fun a b => cf_power a <= cf_power b) sorted /\
      (exists p, g = tick_gap p prec /\ forall x, (best_sell (shown_sells h m) x -> x <= p) /\ ((forall q, shown_sells h m q = 0) -> best_buy (shown_buys h m) x -> p = x)) /\
      Forall2 (grouped (shown_buys h m) (shown_sells h m) lo hi g) sorted (rs_books r)
  end.
Proof.
  intros fuel h lo hi prec cfs r Hf Hp E. apply wf_heap_Forall in Hf. destruct (matched_book h Hf) as (m & Hm & HB & HS & PB & PS & EB & ES). exists m. split; [assumption|].
  unfold query_book, make_response in E. set (w := view_match (make_view h (new_order_book h))) in *.
  pose proof (lowest_sell_spec w (shown_sells h m) HS PS ES) as LS. pose proof (highest_buy_spec w (shown_buys h m) HB PB EB) as BS.
  assert (Hg : forall g l, 1 <= g -> make_displays fuel w lo hi g (sort_configs cfs) = Some l -> Forall2 (grouped (shown_buys h m) (shown_sells h m) lo hi g) (sort_configs cfs) l).
  { intros g l G1 G2. apply displays_spec in G2. clear E. induction G2 as [|c d cl l H1 H2 IH]; constructor; [|assumption].
    destruct (display_spec w _ _ HB HS PB PS EB ES fuel lo hi g c d G1 H1) as (D1 & D2 & D3). split; [assumption|]. split; [rewrite D1; pose proof (pow10_pos (Z.max 0 (cf_power c))); nia|auto]. }
  unfold base_price in E. destruct (view_highest_buy w) as [hb|] eqn:Eb, (view_lowest_sell w) as [ls|] eqn:Es.
  - destruct (sort_configs cfs) as [|c0 cl] eqn:Ec; [discriminate E|]. rewrite <- Ec in *. destruct (unit_loop fuel w hi prec (cf_rows c0) ls) as [p|] eqn:Eu; [|discriminate E]. cbn [option_map] in E.
    destruct (make_displays fuel w lo hi (tick_gap p prec) (sort_configs cfs)) as [l|] eqn:El; [|discriminate E]. injection E as <-. cbn [rs_base rs_books].
    exists (sort_configs cfs), (tick_gap p prec). split; [apply sort_configs_perm|]. split; [apply sort_configs_sorted|]. split; [|apply Hg; [apply tick_gap_pos|assumption]].
    exists p. split; [reflexivity|]. destruct LS as (L0 & L1 & L2). pose proof (unit_loop_spec w fuel hi prec Hp _ _ _ L0 Eu) as Hle. intros x. split.
    + intros Hx. apply Z.le_trans with ls; [|assumption]. apply Hx. apply L2. lia.
    + intros Z0. specialize (L2 ls). rewrite Z0 in L2. lia.
  - destruct (sort_configs cfs) as [|c0 cl] eqn:Ec; [discriminate E|]. rewrite <- Ec in *. cbn [option_map] in E.
    destruct (make_displays fuel w lo hi (tick_gap hb prec) (sort_configs cfs)) as [l|] eqn:El; [|discriminate E]. injection E as <-. cbn [rs_base rs_books].
    exists (sort_configs cfs), (tick_gap hb prec). split; [apply sort_configs_perm|]. split; [apply sort_configs_sorted|]. split; [|apply Hg; [apply tick_gap_pos|assumption]].
    exists hb. split; [reflexivity|]. destruct BS as (L0 & L1 & L2). intros x. split.
    + intros Hx. specialize (Hx x). rewrite LS in Hx. lia.
    + intros _ Hx. pose proof (proj1 (Hx hb)). pose proof (proj1 (L2 x)). pose proof (proj2 (Hx x)). pose proof (proj2 (L2 hb)). lia.
  - destruct (sort_configs cfs) as [|c0 cl] eqn:Ec; [discriminate E|]. rewrite <- Ec in *. destruct (unit_loop fuel w hi prec (cf_rows c0) ls) as [p|] eqn:Eu; [|discriminate E]. cbn [option_map] in E.
    destruct (make_displays fuel w lo hi (tick_gap p prec) (sort_configs cfs)) as [l|] eqn:El; [|discriminate E]. injection E as <-. cbn [rs_base rs_books].
    exists (sort_configs cfs), (tick_gap p prec). split; [apply sort_configs_perm|]. split; [apply sort_configs_sorted|]. split; [|apply Hg; [apply tick_gap_pos|assumption]].
    exists p. split; [reflexivity|]. destruct LS as (L0 & L1 & L2). pose proof (unit_loop_spec w fuel hi prec Hp _ _ _ L0 Eu) as Hle. intros x. split.
    + intros Hx. apply Z.le_trans with ls; [|assumption]. apply Hx. apply L2. lia.
    + intros Z0. specialize (L2 ls). rewrite Z0 in L2. lia.
  - injection E as <-. cbn [rs_base rs_books]. auto.
Qed.
Print Assumptions C51_rows_partial.

(** The base price: midway between the best displayed prices (rounded to a tick), or the only best price. *)
Theorem C51_base_price : forall fuel h lo hi prec cfs r, Forall wf_order h -> query_book fuel h lo hi prec cfs = Some r ->
  exists m, exec_volume h m /\ forall b s, best_buy (shown_buys h m) b -> best_sell (shown_sells h m) s -> rs_base r = Some (round_price ((b + s) / 2) prec).
Proof.
  intros fuel h lo hi prec cfs r Hf E. apply wf_heap_Forall in Hf. destruct (matched_book h Hf) as (m & Hm & HB & HS & PB & PS & EB & ES). exists m. split; [assumption|]. intros b s Hb Hs.
  unfold query_book, make_response in E. set (w := view_match (make_view h (new_order_book h))) in *.
  pose proof (lowest_sell_spec w (shown_sells h m) HS PS ES) as LS. pose proof (highest_buy_spec w (shown_buys h m) HB PB EB) as BS.
  assert (X : base_price w prec = Some (round_price ((b + s) / 2) prec)).
  { unfold base_price. destruct (view_highest_buy w) as [hb|]; [|pose proof (proj2 (Hb b)); rewrite BS in H; lia]. destruct (view_lowest_sell w) as [ls|]; [|pose proof (proj2 (Hs s)); rewrite LS in H; lia].
    destruct BS as (B0 & B1 & B2), LS as (L0 & L1 & L2). unfold best_buy, best_sell in *.
    assert (hb = b) by (pose proof (proj1 (Hb hb)); pose proof (proj1 (B2 b)); pose proof (proj2 (Hb b)); pose proof (proj2 (B2 hb)); lia).
    assert (ls = s) by (pose proof (proj1 (Hs ls)); pose proof (proj1 (L2 s)); pose proof (proj2 (Hs s)); pose proof (proj2 (L2 ls)); lia). subst.
    rewrite Z.quot_div_nonneg by lia. reflexivity. }
  rewrite X in E. destruct (sort_configs cfs); [discriminate E|]. destruct (match view_lowest_sell w with Some _ => _ | None => _ end); [|discriminate E].
  destruct (make_displays _ _ _ _ _ _); [|discriminate E]. injection E as <-. reflexivity.
Qed.
Print Assumptions C51_base_price.

(** The query always terminates with an answer. *)
Theorem C51_answers : forall h lo hi prec cfs, Forall wf_order h -> 0 <= prec -> cfs <> [] -> exists fuel r, query_book fuel h lo hi prec cfs = Some r.
Proof.
  intros h lo hi prec cfs Hf Hp Hc. apply wf_heap_Forall in Hf. destruct (matched_book h Hf) as (m & Hm & HB & HS & PB & PS & EB & ES).
  unfold query_book, make_response. set (w := view_match (make_view h (new_order_book h))) in *.
  pose proof (lowest_sell_spec w (shown_sells h m) HS PS ES) as LS. pose proof (highest_buy_spec w (shown_buys h m) HB PB EB) as BS.
  set (hbz := match view_highest_buy w with Some x => x | None => 0 end). exists (Z.to_nat (Z.max 0 (Z.max hi hbz) + 3)). set (fuel := Z.to_nat _).
  assert (F : hi < Z.of_nat fuel - 1 /\ hbz < Z.of_nat fuel - 1 /\ (0 < fuel)%nat) by (unfold fuel; lia). clearbody fuel. destruct F as (F1 & F2 & F3).
  destruct (base_price w prec) as [base|] eqn:Eb; [|eauto]. destruct (sort_configs cfs) as [|c0 cl] eqn:Ec.
  { pose proof (sort_configs_perm cfs) as P. rewrite Ec in P. apply Permutation_sym, Permutation_nil in P. contradiction. }
  assert (D : forall g, 1 <= g -> exists l, make_displays fuel w lo hi g (c0 :: cl) = Some l).
  { intros g Hg. apply (displays_stop w _ _ HB HS PB PS EB ES fuel lo hi g (c0 :: cl) Hg F1); [|assumption]. intros x Ex. unfold hbz in F2. rewrite Ex in F2. assumption. }
  destruct (view_lowest_sell w) as [ls|] eqn:Es.
  - destruct LS as (L0 & _). destruct (unit_loop_stops w fuel hi prec Hp (cf_rows c0) ls L0 ltac:(lia) F3) as [p ->]. cbn [option_map].
    destruct (D (tick_gap p prec) (tick_gap_pos _ _)) as [l ->]. eauto.
  - unfold base_price in Eb. rewrite Es in Eb. destruct (view_highest_buy w) as [hb|]; [|discriminate Eb]. cbn [option_map].
    destruct (D (tick_gap hb prec) (tick_gap_pos _ _)) as [l ->]. eauto.
Qed.
Print Assumptions C51_answers.

(** One unit of base coin is 10^18.  Two buys and three sells, books with units of one and of ten gaps. *)
Definition o_buy (price amt : Z) : order := new_order Buy price amt (2 * amt) 1 KBase.
Definition o_sell (price amt : Z) : order := new_order Sell price amt amt 1 KBase.
Definition e14 := 10 ^ 14.
Definition book1 : list order :=
  [o_buy (10003 * e14) 300; o_buy (9998 * e14) 200; o_buy (9991 * e14) 100;
   o_sell (10001 * e14) 250; o_sell (10012 * e14) 50; o_sell (10017 * e14) 70; o_sell (10025 * e14) 80].
Example C51_example :
  Forall wf_order book1 /\
  query_book 200 book1 (9000 * e14) (11000 * e14) 4 [mkConfig 2 2; mkConfig 1 10] = Some (mkResponse (Some (10008 * e14))
    [mkDisplay (10 * e14) [(10000 * e14, 50); (9990 * e14, 300)] [(10030 * e14, 80); (10020 * e14, 120)];
     mkDisplay (100 * e14) [(10000 * e14, 50); (9900 * e14, 300)] [(10100 * e14, 200)]]).
Proof.
  split; [|vm_compute; reflexivity].
  repeat (apply Forall_cons; [vm_compute; repeat match goal with |- _ /\ _ => split end; (reflexivity || discriminate)|]). apply Forall_nil.
Qed.

(** Depth is lost at the limits: a sell at 1.0995, within the limit 1.0999, belongs to the unit of 1.1 and is not displayed,
    although rows were available. *)
Theorem C51_refuted : exists fuel h lo hi prec cfs r d, Forall wf_order h /\ query_book fuel h lo hi prec cfs = Some r /\ rs_books r = [d] /\
  (forall o, In o h -> lo <= o_price o <= hi /\ 0 < matchable_amount o (o_price o)) /\ h <> [] /\ map cf_rows cfs = [10] /\ ds_sells d = [] /\ ds_buys d = [].
Proof.
  exists 200%nat, [o_sell (10995 * e14) 70], (9000 * e14), (10999 * e14), 4, [mkConfig 2 10].
  exists (mkResponse (Some (10995 * e14)) [mkDisplay (100 * e14) [] []]), (mkDisplay (100 * e14) [] []).
  split; [apply Forall_cons; [vm_compute; repeat match goal with |- _ /\ _ => split end; (reflexivity || discriminate)|apply Forall_nil]|].
  split; [vm_compute; reflexivity|]. split; [reflexivity|]. split; [|repeat match goal with |- _ /\ _ => split end; (reflexivity || discriminate)].
  intros o [<-|[]]. vm_compute. repeat match goal with |- _ /\ _ => split end; (reflexivity || discriminate).
Qed.
Print Assumptions C51_refuted.

(** ** C57: the displayed book is not crossed. *)

(** What is displayed is what is left when the largest executable amount has traded, best prices first, and every displayed buy is
    below every displayed sell.  Not covered: books whose sides trade completely against each other, see [C57_refuted]. *)
Theorem C57_not_crossed_partial : forall h m, Forall wf_order h -> exec_volume h m -> ~ (m = all_buys h /\ m = all_sells h /\ 0 < m) ->
  (forall p, shown_buys h m p = left_buys h m p) /\ (forall p, shown_sells h m p = left_sells h m p) /\
  (forall b s, best_buy (shown_buys h m) b -> best_sell (shown_sells h m) s -> b < s).
Proof.
  intros h m Hf Hm Hn. apply wf_heap_Forall in Hf. pose proof (resting_le_all h Hf) as R.
  assert (Hm0 : 0 <= m) by (destruct Hm as [[p Hp] _]; specialize (R p); lia).
  assert (A : (forall p, shown_buys h m p = left_buys h m p) /\ (forall p, shown_sells h m p = left_sells h m p)).
  { unfold shown_buys, shown_sells, trades_completely. destruct (Z.eqb_spec m (all_buys h)) as [E1|], (Z.eqb_spec m (all_sells h)) as [E2|]; cbn [andb]; auto.
    assert (m = 0) by lia. unfold left_buys, left_sells. split; intros p; specialize (R p); lia. }
  destruct A as [A1 A2]. split; [assumption|]. split; [assumption|]. intros b s Hb Hs.
  pose proof (proj2 (Hb b) ltac:(lia)) as X. pose proof (proj2 (Hs s) ltac:(lia)) as Y. rewrite A1 in X. rewrite A2 in Y. unfold left_buys, left_sells in *.
  destruct (Z_lt_le_dec b s); [assumption|]. exfalso. pose proof (proj2 (Hs b) ltac:(lia)) as W. rewrite A2 in W. unfold left_sells in W. destruct Hm as [_ Hm]. specialize (Hm b). lia.
Qed.
Print Assumptions C57_not_crossed_partial.
Example C57_example : exec_volume book1 250 /\ all_buys book1 = 600 /\ all_sells book1 = 450.
Proof.
  split; [|split; vm_compute; reflexivity]. split; [exists (10001 * e14); vm_compute; reflexivity|]. intros p.
  unfold resting_buys, resting_sells, book1, o_buy, o_sell. cbn [map o_dir new_order is_buy negb andb o_price].
  repeat match goal with |- context [matchable_amount ?o ?q] => let x := eval vm_compute in (matchable_amount o q) in change (matchable_amount o q) with x end.
  unfold e14. rewrite !sumZ_cons. change (sumZ []) with 0.
  repeat match goal with |- context [if ?a <=? ?b then _ else _] => destruct (Z.leb_spec a b) end; lia.
Qed.

(** A buy above a sell of the same size: everything trades, yet the query displays both, crossed. *)
Theorem C57_refuted : exists fuel h lo hi prec cfs r d b s, Forall wf_order h /\ query_book fuel h lo hi prec cfs = Some r /\ rs_books r = [d] /\
  exec_volume h (all_buys h) /\ all_buys h = all_sells h /\ ds_buys d = [b] /\ ds_sells d = [s] /\ fst s < fst b /\ snd b = all_buys h.
Proof.
  exists 200%nat, [o_buy (10005 * e14) 70; o_sell (10001 * e14) 70], (9000 * e14), (11000 * e14), 4, [mkConfig 0 10].
  exists (mkResponse (Some (10003 * e14)) [mkDisplay e14 [(10005 * e14, 70)] [(10001 * e14, 70)]]), (mkDisplay e14 [(10005 * e14, 70)] [(10001 * e14, 70)]), (10005 * e14, 70), (10001 * e14, 70).
  split; [repeat (apply Forall_cons; [vm_compute; repeat match goal with |- _ /\ _ => split end; (reflexivity || discriminate)|]); apply Forall_nil|].
  split; [vm_compute; reflexivity|]. split; [reflexivity|]. split.
  { split; [exists (10003 * e14); vm_compute; reflexivity|]. intros p. change (all_buys [o_buy (10005 * e14) 70; o_sell (10001 * e14) 70]) with 70.
    unfold resting_buys, resting_sells, o_buy, o_sell. cbn [map o_dir new_order is_buy negb andb o_price].
    repeat match goal with |- context [matchable_amount ?o ?q] => let x := eval vm_compute in (matchable_amount o q) in change (matchable_amount o q) with x end.
    rewrite !sumZ_cons. change (sumZ []) with 0. destruct (10001 * e14 <=? p), (p <=? 10005 * e14); lia. }
  repeat match goal with |- _ /\ _ => split end; vm_compute; reflexivity.
Qed.
Print Assumptions C57_refuted.
