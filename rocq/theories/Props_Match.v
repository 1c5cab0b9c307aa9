(** Properties C07-C20, C52 and C53: orders, order book and matching.
    [h] is the list of submitted orders; [match_outcome iter h h' mp qd] (MatchTop) says that one
    of the two matching entry points of amm.OrderBook, run on the book built from [h] with map
    iteration order [iter], matched something at final price [mp], reported quote coin difference
    [qd] and left the orders as [h'].  [wf_order], [fresh_order], [filled_by] and the totals are
    in MatchSpec. *)
From Verif Require Import Base Dec DecProofs TickModel TickSpec TickProofs OrderModel MatchModel MatchSpec KeyedProofs OrderProofs
  MatchProofs MatchLoopProofs MatchBookProofs MatchTop ShareProofs ViewProofs SingleProofs DirectionProofs.
From Coq Require Import Permutation Sorted.

(** Concrete witnesses used below. *)
Definition mk (d : dir) (price amt batch : Z) (id : Z) : order :=
  new_order d price amt (offer_coin_amount d price amt) batch (KUser id).
Definition book1 : list order :=
  [mk Sell 1000000000000000000 1000 1 1; mk Sell 1010000000000000000 500 2 2; mk Sell 1000000000000000000 700 2 3;
   mk Buy 1020000000000000000 900 1 4; mk Buy 1010000000000000000 600 1 5].
Definition idl := fun l : list (nat * Z) => l.
Lemma idl_perm : is_perm_iter idl. Proof. intros l. apply Permutation_refl. Qed.
Example book1_wf : Forall fresh_order book1 /\ Forall wf_order book1.
Proof. split; repeat constructor; vm_compute; try discriminate; auto. Qed.
Example book1_matches : exists h' mp qd, match_outcome idl book1 h' mp qd /\ h' <> book1.
Proof.
  eexists. eexists. eexists. split; [apply (MO_last idl book1 _ _ _ 1000000000000000000); [reflexivity|vm_compute; reflexivity]|discriminate].
Qed.

(** C07 *)
Theorem C07_offer_coin : forall price amt, 0 <= price -> 0 <= amt ->
  offer_coin_amount Sell price amt = amt /\
  price * amt <= offer_coin_amount Buy price amt * P18 /\
  (forall c, price * amt <= c * P18 -> offer_coin_amount Buy price amt <= c).
Proof. exact (fun price amt Hp Ha => conj (offer_coin_least Sell price amt Hp Ha) (offer_coin_least Buy price amt Hp Ha)). Qed.
Print Assumptions C07_offer_coin.

(** C07, second half: what MatchableAmount returns at a price is the greatest amount that is within
    the open amount and payable from the remaining offer coin, or zero when that amount is worth
    less than one quote coin. *)
Theorem C07_matchable_amount : forall o p, wf_order o -> 0 < p ->
  let m := matchable_amount o p in
  let affordable a := 0 <= a <= o_open o /\ (o_dir o = Buy -> ceil_value p a <= o_offer o - o_paid o) in
  affordable m /\ (forall a, affordable a -> 0 < floor_value p a -> a <= m) /\ (m <> 0 -> 0 < floor_value p m).
Proof. exact matchable_greatest. Qed.
Print Assumptions C07_matchable_amount.

(** C08: fresh orders stay within their amount and their offer, sellers pay and buyers receive
    exactly the filled amount.  ([wf_order] in the conclusion is the list of these facts.) *)
Theorem C08_no_overfill : forall iter h h' mp qd, is_perm_iter iter -> Forall fresh_order h -> match_outcome iter h h' mp qd ->
  length h' = length h /\
  forall i, (i < length h)%nat ->
    let o := get h i in let o' := get h' i in
    0 <= o_open o' <= o_amt o /\ 0 <= o_paid o' <= o_offer o /\ 0 <= o_recv o' /\
    match o_dir o with Buy => o_recv o' = o_amt o - o_open o' | Sell => o_paid o' = o_amt o - o_open o' end.
Proof.
  intros iter h h' mp qd Hi Hf Ho.
  assert (Hwf : Forall wf_order h) by (eapply Forall_impl; [exact fresh_wf|assumption]).
  destruct (match_outcome_orders _ _ _ _ _ Hi Hwf Ho) as (L & W & F). split; [assumption|]. intros i Hlt.
  destruct (F i Hlt) as (fs & _ & D & _ & A & O & _). apply wf_heap_Forall in W. specialize (W i ltac:(lia)).
  unfold wf_order in W. rewrite D, A, O in W. destruct W as (_ & W1 & W2 & W3 & W4). split; [assumption|]. split; [assumption|]. split; [assumption|].
  destruct (o_dir (get h i)); [assumption|apply W4].
Qed.
Print Assumptions C08_no_overfill.

(** C09: every order's change is a sequence of fills at acceptable prices, each paid for exactly. *)
Theorem C09_limit_price : forall iter h h' mp qd, is_perm_iter iter -> Forall wf_order h -> match_outcome iter h h' mp qd ->
  forall i, (i < length h)%nat -> exists fs, filled_by (get h i) fs (get h' i).
Proof. exact (fun iter h h' mp qd Hi Hw Ho => proj2 (proj2 (match_outcome_orders iter h h' mp qd Hi Hw Ho))). Qed.
Print Assumptions C09_limit_price.

(** C10: the book of a list of orders holds exactly the orders with a positive matchable amount at
    their own price ([on_side]), once each, one entry per price, best price first, submission
    order within a price. *)
Theorem C10_book_contents : forall h,
  side_contents h Buy (fun a b => b < a) (buys (new_order_book h)) /\
  side_contents h Sell (fun a b => a < b) (sells (new_order_book h)).
Proof. exact new_book_contents. Qed.
Print Assumptions C10_book_contents.
Example C10_example : map snd (buys (new_order_book book1)) = [[3%nat]; [4%nat]] /\ map snd (sells (new_order_book book1)) = [[0%nat; 2%nat]; [1%nat]].
Proof. vm_compute. auto. Qed.

(** C11: if order [j] got anything, then every order [i] of its side that goes before it (strictly
    better price, or the same price and an earlier batch; batch 0, the pools', is last) and was on
    the book has nothing matchable left at some price it accepts. *)
Theorem C11_priority : forall iter h h' mp qd, is_perm_iter iter -> Forall wf_order h -> match_outcome iter h h' mp qd ->
  forall i j, (i < length h)%nat -> (j < length h)%nat -> o_dir (get h i) = o_dir (get h j) ->
    0 < matchable_amount (get h i) (o_price (get h i)) ->
    (match o_dir (get h j) with Buy => o_price (get h j) < o_price (get h i) | Sell => o_price (get h i) < o_price (get h j) end) \/
    (o_price (get h i) = o_price (get h j) /\ o_batch (get h i) <> 0 /\ (o_batch (get h j) = 0 \/ o_batch (get h i) < o_batch (get h j))) ->
    get h' j <> get h j ->
    exists p, 0 < p /\ accepts (get h' i) p /\ matchable_amount (get h' i) p = 0.
Proof.
  intros iter h h' mp qd Hi Hw Ho i j Li Lj Hd Hm Hb Hc.
  exact (match_outcome_priority iter h h' mp qd Hi Hw Ho i j (conj Li (conj Hd Hm)) Lj Hb Hc).
Qed.
Print Assumptions C11_priority.

(** C12, proved part: buyers never receive less base coin than sellers pay, and exactly as much
    when every sell limit price is at least one. *)
Theorem C12_base_coin_partial : forall iter h h' mp qd, is_perm_iter iter -> Forall wf_order h -> match_outcome iter h h' mp qd ->
  sells_paid h h' <= buys_received h h' /\
  ((forall o, In o h -> o_dir o = Sell -> P18 <= o_price o) -> sells_paid h h' = buys_received h h').
Proof. exact (fun iter h h' mp qd Hi Hw Ho => proj2 (proj2 (match_outcome_totals iter h h' mp qd Hi Hw Ho))). Qed.
Print Assumptions C12_base_coin_partial.

(** C12, full property is false of the code: below price one the sell side may drop a partial fill
    worth less than one quote coin, so buyers receive more base coin than sellers pay. *)
Definition book_dust : list order :=
  [mk Sell 400000000000000000 100000 1 1; mk Sell 400000000000000000 300 1 2;
   mk Buy 500000000000000000 99295 1 3; mk Buy 400000000000000000 1003 1 4].
Theorem C12_base_coin_refuted : exists h h' mp qd,
  Forall fresh_order h /\ match_outcome idl h h' mp qd /\ sells_paid h h' < buys_received h h'.
Proof.
  exists book_dust. eexists. eexists. eexists. split; [repeat constructor; vm_compute; try discriminate; auto|].
  split; [apply (MO_last idl book_dust _ _ _ 500000000000000000); [reflexivity|vm_compute; reflexivity]|].
  vm_compute. reflexivity.
Qed.
Print Assumptions C12_base_coin_refuted.

(** C13, C14 *)
Theorem C13_quote_difference : forall iter h h' mp qd, is_perm_iter iter -> Forall wf_order h -> match_outcome iter h h' mp qd ->
  qd = buys_paid h h' - sells_received h h'.
Proof. exact (fun iter h h' mp qd Hi Hw Ho => proj1 (match_outcome_totals iter h h' mp qd Hi Hw Ho)). Qed.
Print Assumptions C13_quote_difference.

Theorem C14_no_quote_created : forall iter h h' mp qd, is_perm_iter iter -> Forall wf_order h -> match_outcome iter h h' mp qd ->
  0 <= qd /\ sells_received h h' <= buys_paid h h'.
Proof.
  intros iter h h' mp qd Hi Hw Ho. destruct (match_outcome_totals iter h h' mp qd Hi Hw Ho) as (A & B & _). split; lia.
Qed.
Print Assumptions C14_no_quote_created.

(** C15: both entry points give the same result for every map iteration order. *)
Theorem C15_iteration_order : forall iter1 iter2 h, is_perm_iter iter1 -> is_perm_iter iter2 -> Forall wf_order h ->
  (forall last, match_book iter1 h (new_order_book h) last = match_book iter2 h (new_order_book h) last) /\
  (forall p, match_single iter1 h (new_order_book h) p = match_single iter2 h (new_order_book h) p).
Proof.
  intros i1 i2 h H1 H2 Hw. destruct (match_iter_indep i1 h H1 Hw) as [A1 B1]. destruct (match_iter_indep i2 h H2 Hw) as [A2 B2].
  split; intros x; [rewrite A1, A2|rewrite B1, B2]; reflexivity.
Qed.
Print Assumptions C15_iteration_order.
Example C15_hypotheses : is_perm_iter (@rev (nat * Z)) /\ is_perm_iter idl.
Proof. split; [intros l; apply Permutation_sym, Permutation_rev|exact idl_perm]. Qed.

(** C16: [None] is the model's value for running out of iterations (fuel = number of ticks or of
    orders plus one, see MatchModel) and for the panic of FillOrder; neither happens.  A positive
    price is the only requirement. *)
Theorem C16_terminates : forall iter h, is_perm_iter iter -> Forall wf_order h ->
  (forall last, 0 < last -> exists r, match_book iter h (new_order_book h) last = Some r) /\
  (forall p, 0 < p -> exists r, match_single iter h (new_order_book h) p = Some r).
Proof. exact match_total. Qed.
Print Assumptions C16_terminates.

(** C17: for a book of tick-priced orders FindMatchPrice finds a price iff the book crosses; the
    price is a tick between a sell and a buy price, and it balances the book: what could be bought
    strictly above it does not exceed what is sold at or below it, and vice versa. *)
Theorem C17_find_match_price : forall prec h, 0 <= prec <= 88 -> Forall wf_order h ->
  (forall o, In o h -> is_tick prec (o_price o) /\ lowest_tick prec <= o_price o <= highest_tick prec) ->
  match find_match_price (ov_of_view (make_view h (new_order_book h))) prec with
  | Some p => is_tick prec p /\
      (exists b s, In b h /\ In s h /\ o_dir b = Buy /\ o_dir s = Sell /\
         0 < matchable_amount b (o_price b) /\ 0 < matchable_amount s (o_price s) /\ o_price s <= p <= o_price b) /\
      depth (buy_gt p) h <= depth (sell_le p) h /\ depth (sell_lt p) h <= depth (buy_ge p) h
  | None => forall b s, In b h -> In s h -> o_dir b = Buy -> o_dir s = Sell ->
         0 < matchable_amount b (o_price b) -> 0 < matchable_amount s (o_price s) -> o_price b < o_price s
  end.
Proof. exact book_match_price. Qed.
Print Assumptions C17_find_match_price.
Example C17_example : find_match_price (ov_of_view (make_view book1 (new_order_book book1))) 3 = Some 1000000000000000000.
Proof. vm_compute. reflexivity. Qed.

(** C17 for merged sources (keeper: the book plus every pool): a price is found when the best
    prices cross, it is a tick, and lies between the best sell rounded down and the best buy
    rounded up. *)
Theorem C17_find_match_price_views : forall vs prec hb ls, 0 <= prec <= 88 -> Forall good_view vs ->
  ov_highest_buy (multi_view vs) = Some hb -> ov_lowest_sell (multi_view vs) = Some ls ->
  (hb < ls -> find_match_price (multi_view vs) prec = None) /\
  (ls <= hb -> lowest_tick prec <= ls -> hb <= highest_tick prec ->
   exists p, find_match_price (multi_view vs) prec = Some p /\ is_tick prec p /\
     price_to_down_tick ls prec <= p <= price_to_up_tick hb prec).
Proof.
  intros vs prec hb ls Hp G Eb Es. pose proof (multi_good_view vs G) as Gm. pose proof (lowest_lt_highest prec Hp) as Hr. split.
  - intros Hlt. apply find_match_price_none. intros hb' ls' E1 E2. congruence.
  - intros Hle H1 H2. exact (find_match_price_some (multi_view vs) prec ltac:(lia) Hr Gm hb ls Eb Es Hle H1 H2).
Qed.
Print Assumptions C17_find_match_price_views.

(** C18 *)
Theorem C18_depth : forall h, Forall wf_order h -> let v := make_view h (new_order_book h) in
  (forall p, view_buy_over v p true = depth (buy_ge p) h) /\ (forall p, view_buy_over v p false = depth (buy_gt p) h) /\
  (forall p, view_sell_under v p true = depth (sell_le p) h) /\ (forall p, view_sell_under v p false = depth (sell_lt p) h) /\
  (forall p, view_buy_under v p true = depth (buy_le p) h) /\ (forall p, view_buy_under v p false = depth (buy_lt p) h) /\
  (forall p, view_sell_over v p true = depth (sell_ge p) h) /\ (forall p, view_sell_over v p false = depth (sell_gt p) h) /\
  (forall p q, p <= q -> view_buy_over v q true <= view_buy_over v p true /\ view_sell_under v p true <= view_sell_under v q true) /\
  best_buy h (view_highest_buy v) /\ best_sell h (view_lowest_sell v).
Proof.
  intros h Hf v. pose proof (proj1 (wf_heap_Forall h) Hf) as Hw. pose proof (book_good_view h Hf) as G.
  split; [exact (fun p => view_buy_over_depth h Hw p true)|]. split; [exact (fun p => view_buy_over_depth h Hw p false)|].
  split; [exact (fun p => view_sell_under_depth h Hw p true)|]. split; [exact (fun p => view_sell_under_depth h Hw p false)|].
  split; [exact (fun p => view_buy_under_depth h Hw p true)|]. split; [exact (fun p => view_buy_under_depth h Hw p false)|].
  split; [exact (fun p => view_sell_over_depth h Hw p true)|]. split; [exact (fun p => view_sell_over_depth h Hw p false)|].
  split; [intros p q H; split; [apply (gv_buy _ G p q H)|apply (gv_sell _ G p q H)]|]. exact (view_best h Hw).
Qed.
Print Assumptions C18_depth.

(** C19: a single price auction at [p] trades, at [p] only, at most the volume available on the
    smaller side (orders accepting [p], [side_volume]); with [p] at least one exactly that volume,
    on both sides, and it matches nothing only if that volume is zero. *)
Theorem C19_single_price : forall iter h p, is_perm_iter iter -> Forall wf_order h -> 0 < p ->
  match match_single iter h (new_order_book h) p with
  | None => False
  | Some None => P18 <= p -> Z.min (side_volume Buy p h) (side_volume Sell p h) <= 0
  | Some (Some (h', qd)) => exists m,
      0 < m <= Z.min (side_volume Buy p h) (side_volume Sell p h) /\
      (P18 <= p -> m = Z.min (side_volume Buy p h) (side_volume Sell p h)) /\
      buys_received h h' = m /\ sells_paid h h' <= m /\ (P18 <= p -> sells_paid h h' = m) /\
      exists tr, trace h tr h' /\ tr <> [] /\ forall f, In f tr -> f_price f = p
  end.
Proof. exact match_single_amount. Qed.
Print Assumptions C19_single_price.
Example C19_example : side_volume Buy 1010000000000000000 book1 = 1500 /\ side_volume Sell 1010000000000000000 book1 = 2200.
Proof. vm_compute. auto. Qed.

(** C20: the proportional split.  [qs] are orders of one side accepting the price.  Nobody gets
    more than its matchable amount, at most [amt] is handed out in total, and when no share can be
    dust (buy side, or price at least one) exactly [amt] is handed out and every order gets at
    least its proportional share (its amount over the total, truncated to 18 digits, times [amt],
    truncated), capped by its matchable amount. *)
Theorem C20_proportional_split : forall iter h qs d amt price, is_perm_iter iter -> Forall wf_order h ->
  NoDup qs -> (forall q, In q qs -> (q < length h)%nat /\ o_dir (get h q) = d /\ accepts (get h q) price) ->
  0 < price -> 0 <= amt ->
  exists h' qd, distribute_to_orders iter h qs amt price = Some (h', qd) /\
    (forall i, ~ In i qs -> get h' i = get h i) /\
    (forall q, In q qs -> 0 <= o_open (get h q) - o_open (get h' q) <= matchable_amount (get h q) price) /\
    sumZ (map (fun q => o_open (get h q) - o_open (get h' q)) qs) <= amt /\
    ((d = Buy \/ P18 <= price) -> amt <= total_matchable h qs price ->
       sumZ (map (fun q => o_open (get h q) - o_open (get h' q)) qs) = amt) /\
    ((d = Buy \/ P18 <= price) -> forall q, In q qs ->
       Z.min (matchable_amount (get h q) price) (prop_share (o_amt (get h q)) (total_amount h qs) amt)
       <= o_open (get h q) - o_open (get h' q)).
Proof. exact dist_orders_split. Qed.
Print Assumptions C20_proportional_split.

(** C52: merged sources: best prices are the best over all sources, amounts are summed. *)
Theorem C52_merged_views : forall vs : list order_view,
  match ov_highest_buy (multi_view vs) with
  | Some x => (exists v, In v vs /\ ov_highest_buy v = Some x) /\ (forall v y, In v vs -> ov_highest_buy v = Some y -> y <= x)
  | None => forall v, In v vs -> ov_highest_buy v = None
  end /\
  match ov_lowest_sell (multi_view vs) with
  | Some x => (exists v, In v vs /\ ov_lowest_sell v = Some x) /\ (forall v y, In v vs -> ov_lowest_sell v = Some y -> x <= y)
  | None => forall v, In v vs -> ov_lowest_sell v = None
  end /\
  (forall p incl, ov_buy_over (multi_view vs) p incl = sumZ (map (fun v => ov_buy_over v p incl) vs)) /\
  (forall p incl, ov_sell_under (multi_view vs) p incl = sumZ (map (fun v => ov_sell_under v p incl) vs)).
Proof. exact multi_view_best. Qed.
Print Assumptions C52_merged_views.
Example C52_example : let v p s := mkOV (Some p) s (fun _ _ => p) (fun _ _ => 0) in
  ov_highest_buy (multi_view [v 3 None; v 5 (Some 7); v 4 (Some 6)]) = Some 5 /\ ov_lowest_sell (multi_view [v 3 None; v 5 (Some 7); v 4 (Some 6)]) = Some 6.
Proof. vm_compute. auto. Qed.

(** C53: [volume keep p h] is what the chosen orders on the book can trade at price [p]. *)
Theorem C53_direction : forall h last, Forall wf_order h -> 0 < last ->
  (price_direction h (new_order_book h) last = PriceIncreasing <-> volume (sell_le last) last h < volume (buy_gt last) last h) /\
  (price_direction h (new_order_book h) last = PriceDecreasing <-> volume (buy_ge last) last h < volume (sell_lt last) last h).
Proof. exact direction_iff. Qed.
Print Assumptions C53_direction.
Example C53_example : volume (sell_le 1000000000000000000) 1000000000000000000 book1 = 1700 /\ volume (buy_gt 1000000000000000000) 1000000000000000000 book1 = 1500 /\
  price_direction book1 (new_order_book book1) 1000000000000000000 = PriceStaying /\
  price_direction book1 (new_order_book book1) 990000000000000000 = PriceIncreasing /\
  price_direction book1 (new_order_book book1) 1030000000000000000 = PriceDecreasing.
Proof. vm_compute. repeat split. Qed.

(** C53, second half: trades and the new price stay at the last price when the direction is
    "staying", lie between the last and the new price on an upward search, and also on a downward
    search from a last price of at least one: the new price is the furthest one traded at.  Missing: downward searches below price one (false, see below). *)
Theorem C53_prices_partial : forall iter h last h' mp qd m, is_perm_iter iter -> Forall wf_order h -> 0 < last ->
  match_book iter h (new_order_book h) last = Some (h', mp, qd, m) ->
  let traded ok := ok mp /\ forall i, (i < length h)%nat -> exists fs, filled_by (get h i) fs (get h' i) /\ Forall (fun f => ok (snd f)) fs in
  match price_direction h (new_order_book h) last with
  | PriceStaying => traded (fun p => p = last)
  | PriceIncreasing => traded (fun p => last <= p <= mp)
  | PriceDecreasing => P18 <= last -> traded (fun p => mp <= p <= last)
  end.
Proof.
  intros iter h last h' mp qd m Hi Hw Hl E. cbv zeta. destruct (match_prices iter h last h' mp qd m Hi Hw Hl E) as (tr & T & Hm & D).
  assert (G : forall ok : dec -> Prop, (forall f, In f tr -> ok (f_price f)) -> ok mp ->
    ok mp /\ forall i, (i < length h)%nat -> exists fs, filled_by (get h i) fs (get h' i) /\ Forall (fun f => ok (snd f)) fs).
  { intros ok Hf Hok. split; [exact Hok|]. intros i _. exists (fills_of i tr). split; [apply trace_filled_by; assumption|].
    apply Forall_forall. intros f Hin. unfold fills_of in Hin. apply in_map_iff in Hin. destruct Hin as (g & <- & Hin). apply filter_In in Hin. apply Hf. apply Hin. }
  destruct (price_direction h (new_order_book h) last).
  - apply (G (fun p => p = last)); [exact D|]. destruct Hm as [->|(f & Hin & <-)]; [reflexivity|exact (D f Hin)].
  - destruct D as [D1 D2]. apply (G (fun p => last <= p <= mp)); [exact D2|lia].
  - intros H1. destruct (D H1) as [D1 D2]. apply (G (fun p => mp <= p <= last)); [exact D2|lia].
Qed.
Print Assumptions C53_prices_partial.
Example C53_up_example : exists h' mp qd, match_book idl book1 (new_order_book book1) 990000000000000000 = Some (h', mp, qd, true) /\ 990000000000000000 < mp.
Proof. eexists. eexists. eexists. split; vm_compute; reflexivity. Qed.

(** C53, the missing part is false of the code: rounding dust left over at the last price may be
    worth a whole quote coin at the better buy price, so a downward search ends above the last price. *)
Definition book_up : list order :=
  [mk Sell 440000000000000000 1000 1 1; mk Sell 450000000000000000 500 1 2; mk Buy 520000000000000000 1002 1 3].
Theorem C53_prices_refuted : exists h last h' mp qd, Forall fresh_order h /\ 0 < last /\
  price_direction h (new_order_book h) last = PriceDecreasing /\
  match_book idl h (new_order_book h) last = Some (h', mp, qd, true) /\ last < mp.
Proof.
  exists book_up, 480000000000000000. eexists. eexists. eexists. split; [repeat constructor; vm_compute; try discriminate; auto|].
  split; [reflexivity|]. split; [vm_compute; reflexivity|]. split; [vm_compute; reflexivity|reflexivity].
Qed.
Print Assumptions C53_prices_refuted.
