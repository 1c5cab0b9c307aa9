(** Depth views (view.go) and FindMatchPrice (match.go:74-110). *)
From Verif Require Import Base Dec DecProofs TickModel TickSpec TickProofs OrderModel MatchModel MatchSpec KeyedProofs OrderProofs MatchProofs MatchLoopProofs MatchBookProofs MatchTop.
From Coq Require Import Permutation Sorted.

(** Specification: total amount matchable at its own limit price over the orders selected by [keep]. *)
Definition depth (keep : order -> bool) (h : list order) : Z :=
  sumZ (map (fun o => if keep o then matchable_amount o (o_price o) else 0) h).
Definition buy_ge (p : dec) (o : order) : bool := is_buy (o_dir o) && (p <=? o_price o).
Definition buy_gt (p : dec) (o : order) : bool := is_buy (o_dir o) && (p <? o_price o).
Definition buy_le (p : dec) (o : order) : bool := is_buy (o_dir o) && (o_price o <=? p).
Definition buy_lt (p : dec) (o : order) : bool := is_buy (o_dir o) && (o_price o <? p).
Definition sell_le (p : dec) (o : order) : bool := negb (is_buy (o_dir o)) && (o_price o <=? p).
Definition sell_lt (p : dec) (o : order) : bool := negb (is_buy (o_dir o)) && (o_price o <? p).
Definition sell_ge (p : dec) (o : order) : bool := negb (is_buy (o_dir o)) && (p <=? o_price o).
Definition sell_gt (p : dec) (o : order) : bool := negb (is_buy (o_dir o)) && (p <? o_price o).

Definition tick_sum (h : heap) (ts : list tick) : Z := sumZ (map (fun t => total_matchable h (snd t) (fst t)) ts).

Lemma acc_ticks_length h : forall ts acc, length (acc_ticks h acc ts) = length ts.
Proof. induction ts as [|[p ps] ts IH]; intros acc; cbn; auto. Qed.

Lemma acc_ticks_nth h : forall ts acc i, (i < length ts)%nat ->
  nth i (acc_ticks h acc ts) (0, 0) = (fst (nth i ts (0, [])), acc + tick_sum h (firstn (S i) ts)).
Proof.
  induction ts as [|[p ps] ts IH]; intros acc i Hi; [cbn in Hi; lia|]. cbn [acc_ticks]. destruct i as [|i]; cbn [nth].
  - cbn [firstn]. unfold tick_sum. cbn [map fst snd firstn]. rewrite sumZ_cons. cbn. f_equal. lia.
  - rewrite IH by (cbn in Hi; lia). f_equal. cbn [firstn]. unfold tick_sum. cbn [map fst snd]. rewrite !sumZ_cons. lia.
Qed.

(** binary search over a sorted list splits it by a monotone predicate *)
Lemma search_split (R : Z -> Z -> Prop) (ts : list tick) (f : Z -> bool) :
  StronglySorted R (map fst ts) -> (forall x y, R x y -> f x = true -> f y = true) ->
  let i := go_search (lenZ ts) (fun i => f (fst (nth (Z.to_nat i) ts (0, [])))) in
  0 <= i <= lenZ ts /\
  firstn (Z.to_nat i) ts = filter (fun t => negb (f (fst t))) ts /\
  skipn (Z.to_nat i) ts = filter (fun t => f (fst t)) ts.
Proof.
  intros Hs Hm. cbv zeta.
  assert (Hmon : forall i j, 0 <= i <= j -> j < lenZ ts ->
            f (fst (nth (Z.to_nat i) ts (0, []))) = true -> f (fst (nth (Z.to_nat j) ts (0, []))) = true).
  { intros i j Hij Hj Hf. destruct (Z.eq_dec i j) as [->|Hne]; [assumption|]. unfold lenZ in Hj.
    eapply Hm; [|exact Hf].
    pose proof (sorted_nth R (map fst ts) 0 (Z.to_nat i) (Z.to_nat j) Hs) as HR. rewrite map_length in HR.
    specialize (HR ltac:(lia) ltac:(lia)).
    change 0 with (fst (0, @nil nat)) in HR at 1 2. rewrite !map_nth in HR. exact HR. }
  destruct (go_search_mono (lenZ ts) (fun i => f (fst (nth (Z.to_nat i) ts (0, [])))) ltac:(unfold lenZ; lia) Hmon) as (A & B & C).
  set (i := go_search (lenZ ts) _) in *. clearbody i. split; [assumption|].
  assert (G : forall (l : list tick) n, (n <= length l)%nat ->
     (forall k, (k < n)%nat -> f (fst (nth k l (0, []))) = false) ->
     (forall k, (n <= k < length l)%nat -> f (fst (nth k l (0, []))) = true) ->
     firstn n l = filter (fun t => negb (f (fst t))) l /\ skipn n l = filter (fun t => f (fst t)) l).
  { clear. induction l as [|t l IH]; intros n Hn H1 H2.
    - destruct n; split; reflexivity.
    - destruct n as [|n].
      + assert (Ht : f (fst t) = true) by (apply (H2 O); cbn; lia). cbn [firstn skipn filter]. rewrite Ht. cbn [negb].
        destruct (IH O) as [E1 E2]; [lia|intros k Hk; lia|intros k Hk; apply (H2 (S k)); cbn; lia|].
        cbn in E1, E2. rewrite <- E1, <- E2. split; reflexivity.
      + assert (Ht : f (fst t) = false) by (apply (H1 O); lia). cbn [firstn skipn filter]. rewrite Ht. cbn [negb].
        destruct (IH n) as [E1 E2]; [cbn in Hn; lia|intros k Hk; apply (H1 (S k)); lia|intros k Hk; apply (H2 (S k)); cbn; lia|].
        rewrite E1, E2. split; reflexivity. }
  apply G.
  - unfold lenZ in A. lia.
  - intros k Hk. specialize (B (Z.of_nat k) ltac:(lia)). rewrite Nat2Z.id in B. assumption.
  - intros k Hk. specialize (C (Z.of_nat k) ltac:(unfold lenZ; lia)). rewrite Nat2Z.id in C. assumption.
Qed.

Lemma search_ext n f g : 0 <= n -> (forall i, 0 <= i < n -> f i = g i) -> go_search n f = go_search n g.
Proof.
  intros Hn H. unfold go_search.
  assert (G : forall fuel i j, 0 <= i -> j <= n -> search_loop fuel f i j = search_loop fuel g i j).
  { induction fuel as [|fuel IH]; intros i j Hi Hj; [reflexivity|]. cbn. destruct (Z.ltb_spec i j); [|reflexivity].
    assert (i <= (i + j) / 2 < j) by (split; [apply Z.div_le_lower_bound|apply Z.div_lt_upper_bound]; lia).
    rewrite <- (H ((i + j) / 2)) by lia. destruct (f ((i + j) / 2)); apply IH; lia. }
  apply G; lia.
Qed.

Lemma nth_acc_ticks h ts i : 0 <= i < lenZ ts ->
  nth_acc (acc_ticks h 0 ts) i = (fst (nth (Z.to_nat i) ts (0, [])), tick_sum h (firstn (S (Z.to_nat i)) ts)).
Proof. intros Hi. unfold nth_acc. unfold lenZ in Hi. rewrite acc_ticks_nth by lia. f_equal. Qed.

(** what BuyAmountOver / SellAmountUnder return: the sum over the selected prefix *)
Lemma acc_prefix (R : Z -> Z -> Prop) h ts (f : Z -> bool) :
  StronglySorted R (map fst ts) -> (forall x y, R x y -> f x = true -> f y = true) ->
  (let l := acc_ticks h 0 ts in
   let i := go_search (lenZ l) (fun i => f (fst (nth_acc l i))) in
   if i =? 0 then 0 else snd (nth_acc l (i - 1))) = tick_sum h (filter (fun t => negb (f (fst t))) ts).
Proof.
  intros Hs Hm. cbv zeta. assert (El : lenZ (acc_ticks h 0 ts) = lenZ ts) by (unfold lenZ; rewrite acc_ticks_length; reflexivity).
  rewrite El.
  rewrite (search_ext (lenZ ts) _ (fun i => f (fst (nth (Z.to_nat i) ts (0, []))))).
  2:{ unfold lenZ; lia. }
  2:{ intros i Hi. rewrite nth_acc_ticks by assumption. reflexivity. }
  destruct (search_split R ts f Hs Hm) as (A & B & _).
  set (i := go_search (lenZ ts) _) in *. rewrite <- B.
  destruct (Z.eqb_spec i 0) as [->|Hne]; [reflexivity|].
  rewrite nth_acc_ticks by lia. cbn [snd]. f_equal. f_equal. lia.
Qed.

Lemma tick_sum_app h a b : tick_sum h (a ++ b) = tick_sum h a + tick_sum h b.
Proof. unfold tick_sum. rewrite map_app. apply sumZ_app. Qed.
Lemma tick_sum_filter h (f : Z -> bool) ts :
  tick_sum h (filter (fun t => f (fst t)) ts) + tick_sum h (filter (fun t => negb (f (fst t))) ts) = tick_sum h ts.
Proof.
  unfold tick_sum. induction ts as [|t ts IH]; [reflexivity|]. cbn [filter]. destruct (f (fst t)); cbn [negb map]; rewrite ?sumZ_cons; cbn [map]; rewrite ?sumZ_cons; lia.
Qed.

(** BuyAmountUnder / SellAmountOver: the complement *)
Lemma acc_suffix (R : Z -> Z -> Prop) h ts (f : Z -> bool) :
  StronglySorted R (map fst ts) -> (forall x y, R x y -> f x = true -> f y = true) ->
  (let l := acc_ticks h 0 ts in
   let i := go_search (lenZ l) (fun i => f (fst (nth_acc l i))) in
   let tot := snd (nth_acc l (lenZ l - 1)) in
   if i =? 0 then tot else tot - snd (nth_acc l (i - 1))) = tick_sum h (filter (fun t => f (fst t)) ts).
Proof.
  intros Hs Hm. pose proof (acc_prefix R h ts f Hs Hm) as E. cbv zeta in *.
  assert (El : lenZ (acc_ticks h 0 ts) = lenZ ts) by (unfold lenZ; rewrite acc_ticks_length; reflexivity).
  assert (Et : snd (nth_acc (acc_ticks h 0 ts) (lenZ (acc_ticks h 0 ts) - 1)) = tick_sum h ts).
  { rewrite El. destruct ts as [|t ts]; [reflexivity|]. rewrite nth_acc_ticks by (unfold lenZ; cbn [length]; lia).
    cbn [snd]. f_equal. unfold lenZ. cbn [length].
    replace (S (Z.to_nat (Z.of_nat (S (length ts)) - 1))) with (length (t :: ts)) by (cbn [length]; lia). apply firstn_all. }
  rewrite Et. pose proof (tick_sum_filter h f ts). destruct (_ =? 0); lia.
Qed.

(** sums over the ticks of a side are sums over the orders of the heap *)
Lemma sum_flat_ticks h ts (g : Z -> bool) : (forall t p, In t ts -> In p (snd t) -> o_price (get h p) = fst t) ->
  tick_sum h (filter (fun t => g (fst t)) ts) =
  sumZ (map (fun p => if g (o_price (get h p)) then matchable_amount (get h p) (o_price (get h p)) else 0) (flat_map snd ts)).
Proof.
  induction ts as [|t ts IH]; intros H; [reflexivity|]. cbn [flat_map filter]. rewrite map_app, sumZ_app.
  rewrite <- IH by (intros u p Hu; apply H; right; assumption).
  assert (E : sumZ (map (fun p => if g (o_price (get h p)) then matchable_amount (get h p) (o_price (get h p)) else 0) (snd t)) =
              if g (fst t) then total_matchable h (snd t) (fst t) else 0).
  { rewrite total_matchable_sum. destruct (g (fst t)) eqn:Eg.
    - apply sumZ_map_ext. intros p Hp. rewrite (H t p (or_introl eq_refl) Hp), Eg. reflexivity.
    - rewrite (sumZ_map_ext _ (fun _ => 0)); [clear; induction (snd t) as [|x l IHl]; [reflexivity|cbn [map]; rewrite sumZ_cons; lia]|].
      intros p Hp. rewrite (H t p (or_introl eq_refl) Hp), Eg. reflexivity. }
  rewrite E. unfold tick_sum. destruct (g (fst t)); cbn [map]; rewrite ?sumZ_cons; lia.
Qed.

Lemma sum_filter_seq (g : nat -> Z) (f : nat -> bool) l : (forall p, In p l -> f p = false -> g p = 0) ->
  sumZ (map g (filter f l)) = sumZ (map g l).
Proof.
  induction l as [|p l IH]; intros H; [reflexivity|]. cbn [filter map]. rewrite sumZ_cons.
  rewrite <- IH by (intros q Hq; apply H; right; assumption).
  destruct (f p) eqn:E; cbn [map]; rewrite ?sumZ_cons; [reflexivity|]. rewrite (H p) by auto using in_eq. lia.
Qed.

Lemma sum_seq_heap (g : order -> Z) h : sumZ (map (fun p => g (get h p)) (seq 0 (length h))) = sumZ (map g h).
Proof.
  assert (G : forall l k, (forall i, (i < length l)%nat -> get h (k + i) = nth i l dummy_order) ->
            sumZ (map (fun p => g (get h p)) (seq k (length l))) = sumZ (map g l)).
  { induction l as [|o l IH]; intros k H; [reflexivity|]. cbn [length seq map]. rewrite !sumZ_cons.
    rewrite <- (IH (S k)).
    - f_equal. f_equal. specialize (H O ltac:(cbn; lia)). rewrite Nat.add_0_r in H. exact H.
    - intros i Hi. specialize (H (S i) ltac:(cbn; lia)). rewrite <- plus_n_Sm in H. exact H. }
  apply G. intros i _. reflexivity.
Qed.

Lemma side_depth h d (g : Z -> bool) (ts : list tick) inc : wf_heap h ->
  keyed (tick_order inc) (fun p => o_price (get h p)) (filter (listed h d) (seq 0 (length h))) ts ->
  tick_sum h (filter (fun t => g (fst t)) ts) =
  depth (fun o => match d, o_dir o with Buy, Buy => g (o_price o) | Sell, Sell => g (o_price o) | _, _ => false end) h.
Proof.
  intros Hwf HK. rewrite sum_flat_ticks.
  2:{ intros [x ms] p Ht Hp. apply (keyed_members _ _ _ _ _ _ HK Ht) in Hp. apply Hp. }
  rewrite (sumZ_perm _ (map (fun p => if g (o_price (get h p)) then matchable_amount (get h p) (o_price (get h p)) else 0) (filter (listed h d) (seq 0 (length h))))).
  2:{ apply Permutation_map. apply (keyed_perm _ (tick_order_irrefl inc) _ _ _ HK). }
  unfold depth. rewrite <- sum_seq_heap.
  rewrite (sumZ_map_ext _ (fun p => if match d, o_dir (get h p) with Buy, Buy => g (o_price (get h p)) | Sell, Sell => g (o_price (get h p)) | _, _ => false end
       then matchable_amount (get h p) (o_price (get h p)) else 0) (filter _ _)).
  2:{ intros p Hp. apply filter_In in Hp. destruct Hp as [_ Hl]. rewrite (listed_dir _ _ _ Hl). destruct d; reflexivity. }
  apply sum_filter_seq. intros p Hp Hl. apply in_seq in Hp. unfold listed in Hl.
  pose proof (Hwf p ltac:(lia)) as Hw. pose proof Hw as (Hpos & _).
  pose proof (matchable_le_open _ _ Hw Hpos) as Hm.
  destruct (Z.ltb_spec 0 (matchable_amount (get h p) (o_price (get h p)))) as [H|H]; cbn [andb] in Hl.
  - destruct d, (o_dir (get h p)); congruence || reflexivity.
  - match goal with |- (if ?b then _ else _) = _ => destruct b end; lia.
Qed.

Lemma depth_ext f g h : (forall o, f o = g o) -> depth f h = depth g h.
Proof. intros H. unfold depth. apply sumZ_map_ext. intros o _. rewrite H. reflexivity. Qed.

Section View.
  Variable h : heap.
  Hypothesis Hwf : wf_heap h.
  Let v := make_view h (new_order_book h).

  Lemma buys_sorted : StronglySorted (tick_order false) (map fst (buys (new_order_book h))).
  Proof. apply (sw_sorted _ _ _ _ (proj1 (book_side_wf h Hwf))). Qed.
  Lemma sells_sorted : StronglySorted (tick_order true) (map fst (sells (new_order_book h))).
  Proof. apply (sw_sorted _ _ _ _ (proj2 (book_side_wf h Hwf))). Qed.

  Lemma view_buy_over_depth p incl : view_buy_over v p incl = depth (if incl then buy_ge p else buy_gt p) h.
  Proof.
    destruct (new_order_book_ok h) as [KB _].
    pose proof (acc_prefix _ h (buys (new_order_book h)) (fun x => if incl then x <? p else x <=? p) buys_sorted) as E.
    cbv zeta in E. unfold view_buy_over, v, make_view. cbn [v_buys]. rewrite E.
    2:{ intros x y Hxy. cbn in Hxy. destruct incl; intros H; [apply Z.ltb_lt in H; apply Z.ltb_lt|apply Z.leb_le in H; apply Z.leb_le]; lia. }
    rewrite (side_depth h Buy (fun x => negb (if incl then x <? p else x <=? p)) _ false Hwf KB).
    apply depth_ext. intros o. destruct incl; unfold buy_ge, buy_gt; destruct (o_dir o); cbn [is_buy negb andb]; first [reflexivity | symmetry; apply Z.leb_antisym | symmetry; apply Z.ltb_antisym].
  Qed.

  Lemma view_sell_under_depth p incl : view_sell_under v p incl = depth (if incl then sell_le p else sell_lt p) h.
  Proof.
    destruct (new_order_book_ok h) as [_ KS].
    pose proof (acc_prefix _ h (sells (new_order_book h)) (fun x => if incl then p <? x else p <=? x) sells_sorted) as E.
    cbv zeta in E. unfold view_sell_under, v, make_view. cbn [v_sells]. rewrite E.
    2:{ intros x y Hxy. cbn in Hxy. destruct incl; intros H; [apply Z.ltb_lt in H; apply Z.ltb_lt|apply Z.leb_le in H; apply Z.leb_le]; lia. }
    rewrite (side_depth h Sell (fun x => negb (if incl then p <? x else p <=? x)) _ true Hwf KS).
    apply depth_ext. intros o. destruct incl; unfold sell_le, sell_lt; destruct (o_dir o); cbn [is_buy negb andb]; first [reflexivity | symmetry; apply Z.leb_antisym | symmetry; apply Z.ltb_antisym].
  Qed.

  Lemma view_buy_under_depth p incl : view_buy_under v p incl = depth (if incl then buy_le p else buy_lt p) h.
  Proof.
    destruct (new_order_book_ok h) as [KB _].
    pose proof (acc_suffix _ h (buys (new_order_book h)) (fun x => if incl then x <=? p else x <? p) buys_sorted) as E.
    cbv zeta in E. unfold view_buy_under, v, make_view. cbn [v_buys]. cbv zeta. rewrite E.
    2:{ intros x y Hxy. cbn in Hxy. destruct incl; intros H; [apply Z.leb_le in H; apply Z.leb_le|apply Z.ltb_lt in H; apply Z.ltb_lt]; lia. }
    rewrite (side_depth h Buy (fun x => if incl then x <=? p else x <? p) _ false Hwf KB).
    apply depth_ext. intros o. destruct incl; unfold buy_le, buy_lt; destruct (o_dir o); reflexivity.
  Qed.

  Lemma view_sell_over_depth p incl : view_sell_over v p incl = depth (if incl then sell_ge p else sell_gt p) h.
  Proof.
    destruct (new_order_book_ok h) as [_ KS].
    pose proof (acc_suffix _ h (sells (new_order_book h)) (fun x => if incl then p <=? x else p <? x) sells_sorted) as E.
    cbv zeta in E. unfold view_sell_over, v, make_view. cbn [v_sells]. cbv zeta. rewrite E.
    2:{ intros x y Hxy. cbn in Hxy. destruct incl; intros H; [apply Z.leb_le in H; apply Z.leb_le|apply Z.ltb_lt in H; apply Z.ltb_lt]; lia. }
    rewrite (side_depth h Sell (fun x => if incl then p <=? x else p <? x) _ true Hwf KS).
    apply depth_ext. intros o. destruct incl; unfold sell_ge, sell_gt; destruct (o_dir o); reflexivity.
  Qed.
End View.

Lemma depth_mono f g h : Forall wf_order h -> (forall o, f o = true -> g o = true) -> 0 <= depth f h <= depth g h.
Proof.
  intros Hwf Hi. unfold depth. rewrite Forall_forall in Hwf.
  assert (Hn : forall o, In o h -> 0 <= matchable_amount o (o_price o)).
  { intros o Ho. destruct (Hwf o Ho) as (Hp & X). apply matchable_le_open; [apply Hwf; assumption|assumption]. }
  split.
  - apply sumZ_map_nonneg. intros o Ho. specialize (Hn o Ho). destruct (f o); lia.
  - apply sumZ_map_le. intros o Ho. specialize (Hn o Ho). destruct (f o) eqn:E; [rewrite (Hi o E); lia|destruct (g o); lia].
Qed.

(** ** FindMatchPrice *)

(** What FindMatchPrice may assume of a view: depths are monotone and the best prices are where the
    depth becomes positive. *)
Record good_view (ov : order_view) : Prop := {
  gv_buy : forall p q, p <= q -> 0 <= ov_buy_over ov q true <= ov_buy_over ov p true;
  gv_sell : forall p q, p <= q -> 0 <= ov_sell_under ov p true <= ov_sell_under ov q true;
  gv_hb : forall p, 0 < ov_buy_over ov p true <-> exists hb, ov_highest_buy ov = Some hb /\ p <= hb;
  gv_ls : forall p, 0 < ov_sell_under ov p true <-> exists ls, ov_lowest_sell ov = Some ls /\ ls <= p }.

Lemma tick_from_index_mono1 prec i j : 0 <= prec -> -1 <= i -> i <= j -> tick_from_index i prec <= tick_from_index j prec.
Proof.
  intros Hp Hi Hij. destruct (Z.eq_dec i (-1)) as [->|Hne]; [|apply tick_from_index_mono_le; lia].
  destruct (Z.eq_dec j (-1)) as [->|Hj]; [lia|].
  destruct (tick_from_index_tick prec j Hp ltac:(lia)) as [_ Hl]. unfold lowest_tick in Hl.
  pose proof (pow10_pos prec Hp). unfold tick_from_index at 1.
  replace (Z.quot (-1) (9 * 10 ^ prec)) with 0 by (symmetry; apply (Z.quot_opp_l 1 (9 * 10 ^ prec) ltac:(lia)) || (rewrite <- (Z.opp_involutive (-1)); change (- (-1)) with 1; rewrite Z.quot_opp_l by lia; rewrite Z.quot_small by lia; reflexivity)).
  replace (Z.rem (-1) (10 ^ prec * 9)) with (-1) by (change (-1) with (- (1)); rewrite Z.rem_opp_l by lia; rewrite Z.rem_small by lia; reflexivity).
  destruct (Z.ltb_spec prec (0 + prec)); lia.
Qed.

Lemma highest_is_tick prec : 0 <= prec -> is_tick prec (highest_tick prec).
Proof. intros Hp. apply (price_to_down_tick_spec (2 ^ 300 - 1) prec Hp). reflexivity. Qed.

Lemma round_between prec lo hi x : 0 <= prec -> is_tick prec lo -> is_tick prec hi -> lowest_tick prec <= lo ->
  lo <= x <= hi -> is_tick prec (round_price x prec) /\ lo <= round_price x prec <= hi.
Proof.
  intros Hp Tlo Thi Hlow Hx. pose proof (tick_pos _ _ Tlo) as Hpos.
  destruct (price_to_down_tick_spec x prec Hp ltac:(lia)) as (D1 & D2 & D3).
  destruct (Z.eq_dec (price_to_down_tick x prec) x) as [E|N].
  - assert (Tx : is_tick prec x) by (rewrite <- E; assumption). rewrite round_price_tick by assumption. auto.
  - assert (Hnt : ~ is_tick prec x) by (intros Tx; apply N; apply down_tick_id; assumption).
    destruct (round_price_spec x prec Hp ltac:(lia) Hnt) as [[(R1 & R2 & R3)|(R1 & R2 & R3)] _]; (split; [assumption|]).
    + split; [|lia]. apply R3; [assumption|]. assert (lo <> x) by (intros ->; contradiction). lia.
    + split; [lia|]. apply R3; [assumption|]. assert (hi <> x) by (intros ->; contradiction). lia.
Qed.

Section FMP.
  Variable ov : order_view.
  Variable prec : Z.
  Hypothesis Hp : 0 <= prec.
  Hypothesis Hr : lowest_tick prec < highest_tick prec.
  Hypothesis G : good_view ov.
  Let T i := tick_from_index i prec.
  Let lo := tick_to_index (lowest_tick prec) prec.
  Let hi := tick_to_index (highest_tick prec) prec.
  Let f := fun i => let s := ov_sell_under ov (T i) true in (0 <? s) && (ov_buy_over ov (T (i + 1)) true <=? s).
  Let g := fun i => let b := ov_buy_over ov (T i) true in (0 <? b) && (ov_sell_under ov (T (i - 1)) true <=? b).

  Lemma fmp_lo : lo = 0. Proof. apply tick_to_index_lowest. assumption. Qed.
  Lemma fmp_hi : 0 < hi /\ T hi = highest_tick prec.
  Proof.
    split.
    - rewrite <- fmp_lo. apply tick_to_index_mono; auto using lowest_is_tick, highest_is_tick. lia.
    - apply tick_from_index_of_index; auto using highest_is_tick. lia.
  Qed.
  Lemma f_mono i j : lo <= i <= j -> j <= hi -> f i = true -> f j = true.
  Proof.
    rewrite fmp_lo. intros Hij Hj. unfold f. cbv zeta. rewrite !andb_true_iff, !Z.ltb_lt, !Z.leb_le. intros [H1 H2].
    assert (M1 : T i <= T j) by (apply tick_from_index_mono1; lia).
    assert (M2 : T (i + 1) <= T (j + 1)) by (apply tick_from_index_mono1; lia).
    pose proof (gv_sell _ G _ _ M1). pose proof (gv_buy _ G _ _ M2). lia.
  Qed.
  Lemma g_mono i j : lo <= i <= j -> j <= hi -> g j = true -> g i = true.
  Proof.
    rewrite fmp_lo. intros Hij Hj. unfold g. cbv zeta. rewrite !andb_true_iff, !Z.ltb_lt, !Z.leb_le. intros [H1 H2].
    assert (M1 : T i <= T j) by (apply tick_from_index_mono1; lia).
    assert (M2 : T (i - 1) <= T (j - 1)) by (apply tick_from_index_mono1; lia).
    pose proof (gv_buy _ G _ _ M1). pose proof (gv_sell _ G _ _ M2). lia.
  Qed.

  Lemma find_match_price_none : (forall hb ls, ov_highest_buy ov = Some hb -> ov_lowest_sell ov = Some ls -> hb < ls) ->
    find_match_price ov prec = None.
  Proof.
    intros H. unfold find_match_price. destruct (ov_highest_buy ov) as [hb|]; [|reflexivity].
    destruct (ov_lowest_sell ov) as [ls|]; [|reflexivity]. specialize (H hb ls eq_refl eq_refl).
    destruct (Z.ltb_spec hb ls); [reflexivity|lia].
  Qed.

  Lemma find_match_price_some hb ls : ov_highest_buy ov = Some hb -> ov_lowest_sell ov = Some ls -> ls <= hb ->
    lowest_tick prec <= ls -> hb <= highest_tick prec ->
    exists p, find_match_price ov prec = Some p /\ is_tick prec p /\
      price_to_down_tick ls prec <= p <= price_to_up_tick hb prec.
  Proof.
    intros Ehb Els Hle Hlow Hhigh. pose proof fmp_lo as El. destruct fmp_hi as [Hhi ETh].
    pose proof (tick_pos _ _ (lowest_is_tick prec Hp)) as Hlpos.
    destruct (price_to_up_tick_spec hb prec Hp ltac:(lia)) as (U1 & U2 & U3).
    destruct (price_to_down_tick_spec ls prec Hp ltac:(lia)) as (D1 & D2 & D3).
    set (up := price_to_up_tick hb prec) in *. set (dn := price_to_down_tick ls prec) in *.
    assert (Hdn : lowest_tick prec <= dn) by (apply D3; auto using lowest_is_tick).
    assert (Hup : up <= highest_tick prec) by (apply U3; auto using highest_is_tick).
    destruct (tick_from_index_of_index prec up Hp U1 ltac:(lia)) as [Nu Eu].
    destruct (tick_from_index_of_index prec dn Hp D1 Hdn) as [Nd Ed].
    set (ku := tick_to_index up prec) in *. set (kd := tick_to_index dn prec) in *.
    assert (Hku : 0 <= ku <= hi).
    { split; [assumption|]. apply tick_to_index_mono_le; auto using highest_is_tick. lia. }
    assert (Hkd : 0 <= kd <= hi).
    { split; [assumption|]. apply tick_to_index_mono_le; auto using highest_is_tick. lia. }
    assert (Sgt : forall p, 0 < ov_sell_under ov p true <-> ls <= p).
    { intros p. rewrite (gv_ls _ G). split; [intros (x & Hx & Hx2); congruence || (rewrite Els in Hx; injection Hx as <-; assumption)|eauto]. }
    assert (Bgt : forall p, 0 < ov_buy_over ov p true <-> p <= hb).
    { intros p. rewrite (gv_hb _ G). split; [intros (x & Hx & Hx2); rewrite Ehb in Hx; injection Hx as <-; assumption|eauto]. }
    assert (Fk : f ku = true).
    { unfold f. cbv zeta. rewrite andb_true_iff, Z.ltb_lt, Z.leb_le. unfold T at 1 3. rewrite Eu.
      assert (0 < ov_sell_under ov up true) by (apply Sgt; lia).
      assert (T ku < T (ku + 1)) by (apply tick_from_index_mono; lia).
      assert (~ 0 < ov_buy_over ov (T (ku + 1)) true) by (rewrite Bgt; unfold T in *; lia). lia. }
    assert (Gk : g kd = true).
    { unfold g. cbv zeta. rewrite andb_true_iff, Z.ltb_lt, Z.leb_le. unfold T at 1 3. rewrite Ed.
      assert (0 < ov_buy_over ov dn true) by (apply Bgt; lia).
      assert (T (kd - 1) < dn).
      { rewrite <- Ed. destruct (Z.eq_dec kd 0) as [E0|N0]; [|apply tick_from_index_mono; lia].
        rewrite E0. unfold T. rewrite Z.sub_0_l.
        pose proof (pow10_pos prec Hp) as Hpp. change (-(1)) with (-1). unfold tick_from_index.
        replace (Z.quot (-1) (9 * 10 ^ prec)) with 0 by (change (-1) with (- (1)); rewrite Z.quot_opp_l by lia; rewrite Z.quot_small by lia; reflexivity).
        replace (Z.rem (-1) (10 ^ prec * 9)) with (-1) by (change (-1) with (- (1)); rewrite Z.rem_opp_l by lia; rewrite Z.rem_small by lia; reflexivity).
        rewrite Z.quot_0_l, Z.rem_0_l by lia. destruct (Z.ltb_spec prec (0 + prec)); lia. }
      assert (~ 0 < ov_sell_under ov (T (kd - 1)) true) by (rewrite Sgt; lia). lia. }
    assert (EF : find_match_price ov prec = match find_first_true lo hi f with
        | Some i => match find_first_true hi lo g with
                    | Some j => Some (round_price (dquo_int (T i + T j) 2) prec) | None => None end
        | None => None end).
    { unfold find_match_price. rewrite Ehb, Els. destruct (Z.ltb_spec hb ls); [lia|]. reflexivity. }
    rewrite EF. clear EF.
    pose proof (find_first_true_up lo hi f ltac:(lia) f_mono) as FU.
    destruct (find_first_true lo hi f) as [i|].
    2:{ rewrite (FU ku) in Fk by lia. discriminate. }
    destruct FU as (Hi & Fi & Fmin).
    assert (i <= ku). { destruct (Z_le_gt_dec i ku); [assumption|]. rewrite (Fmin ku) in Fk by lia. discriminate. }
    pose proof (find_first_true_down lo hi g ltac:(lia) g_mono) as FD.
    destruct (find_first_true hi lo g) as [j|].
    2:{ rewrite (FD kd) in Gk by lia. discriminate. }
    destruct FD as (Hj & Gj & Gmax).
    assert (kd <= j). { destruct (Z_le_gt_dec kd j); [assumption|]. rewrite (Gmax kd) in Gk by lia. discriminate. }
    assert (Ti : dn <= T i <= up).
    { split.
      - unfold f in Fi. cbv zeta in Fi. apply andb_true_iff in Fi. destruct Fi as [Fi _]. apply Z.ltb_lt, Sgt in Fi. lia.
      - rewrite <- Eu. apply tick_from_index_mono1; lia. }
    assert (Tj : dn <= T j <= up).
    { split.
      - rewrite <- Ed. apply tick_from_index_mono1; lia.
      - unfold g in Gj. cbv zeta in Gj. apply andb_true_iff in Gj. destruct Gj as [Gj _]. apply Z.ltb_lt, Bgt in Gj. lia. }
    eexists. split; [reflexivity|]. apply round_between; auto.
    unfold dquo_int. fold (T i) (T j). rewrite Z.quot_div_nonneg by lia.
    split; [apply Z.div_le_lower_bound|apply Z.div_le_upper_bound]; lia.
  Qed.

  (** When the best prices are ticks the chosen price balances the book. *)
  Lemma find_match_price_balance hb ls : ov_highest_buy ov = Some hb -> ov_lowest_sell ov = Some ls -> ls <= hb ->
    lowest_tick prec <= ls -> hb <= highest_tick prec -> is_tick prec hb -> is_tick prec ls ->
    exists p, find_match_price ov prec = Some p /\ is_tick prec p /\ ls <= p <= hb /\
      ov_buy_over ov (up_tick p prec) true <= ov_sell_under ov p true /\
      (lowest_tick prec < p -> ov_sell_under ov (down_tick p prec) true <= ov_buy_over ov p true).
  Proof.
    intros Ehb Els Hle Hlow Hhigh Thb Tls.
    destruct (find_match_price_some hb ls Ehb Els Hle Hlow Hhigh) as (p & Ep & Tp & Hp1).
    rewrite (down_tick_id ls prec Hp Tls) in Hp1. unfold price_to_up_tick in Hp1. rewrite (down_tick_id hb prec Hp Thb) in Hp1.
    rewrite Z.eqb_refl in Hp1. exists p. split; [assumption|]. split; [assumption|]. split; [assumption|].
    pose proof fmp_lo as El. destruct fmp_hi as [Hhi ETh].
    assert (EF : find_match_price ov prec = match find_first_true lo hi f with
        | Some i => match find_first_true hi lo g with
                    | Some j => Some (round_price (dquo_int (T i + T j) 2) prec) | None => None end
        | None => None end).
    { unfold find_match_price. rewrite Ehb, Els. destruct (Z.ltb_spec hb ls); [lia|]. reflexivity. }
    rewrite Ep in EF.
    pose proof (find_first_true_up lo hi f ltac:(lia) f_mono) as FU.
    destruct (find_first_true lo hi f) as [i|]; [|discriminate]. destruct FU as (Hi & Fi & Fmin).
    pose proof (find_first_true_down lo hi g ltac:(lia) g_mono) as FD.
    destruct (find_first_true hi lo g) as [j|]; [|discriminate]. destruct FD as (Hj & Gj & Gmax).
    injection EF as EF.
    assert (Sgt : forall p, 0 < ov_sell_under ov p true <-> ls <= p).
    { intros q. rewrite (gv_ls _ G). split; [intros (x & Hx & Hx2); rewrite Els in Hx; injection Hx as <-; assumption|eauto]. }
    assert (Bgt : forall p, 0 < ov_buy_over ov p true <-> p <= hb).
    { intros q. rewrite (gv_hb _ G). split; [intros (x & Hx & Hx2); rewrite Ehb in Hx; injection Hx as <-; assumption|eauto]. }
    destruct (tick_from_index_of_index prec hb Hp Thb ltac:(lia)) as [Nhb Ekhb].
    destruct (tick_from_index_of_index prec ls Hp Tls Hlow) as [Nls Ekls].
    assert (Hij : i <= j).
    { destruct (Z_le_gt_dec i j) as [|Hgt]; [assumption|]. exfalso.
      pose proof (Fmin (i - 1) ltac:(lia)) as F1. pose proof (Gmax i ltac:(lia)) as G1.
      unfold f in F1. unfold g in G1. cbv zeta in F1, G1. replace (i - 1 + 1) with i in F1 by lia.
      apply andb_false_iff in F1. apply andb_false_iff in G1.
      rewrite Z.ltb_ge, Z.leb_gt in F1. rewrite Z.ltb_ge, Z.leb_gt in G1.
      pose proof (gv_buy _ G (T i) (T i) ltac:(lia)). pose proof (gv_sell _ G (T (i - 1)) (T (i - 1)) ltac:(lia)).
      assert (~ 0 < ov_sell_under ov (T (i - 1)) true) as A by lia. assert (~ 0 < ov_buy_over ov (T i) true) as B by lia.
      rewrite Sgt in A. rewrite Bgt in B.
      assert (T (i - 1) < T (tick_to_index ls prec)) as A1 by (unfold T in *; rewrite Ekls; lia).
      assert (T (tick_to_index hb prec) < T i) as B1 by (unfold T in *; rewrite Ekhb; lia).
      assert (i - 1 < tick_to_index ls prec).
      { destruct (Z_lt_le_dec (i - 1) (tick_to_index ls prec)) as [|HH]; [assumption|].
        apply (tick_from_index_mono_le prec _ _ Hp Nls) in HH. fold (T (i - 1)) in HH. unfold T in *; lia. }
      assert (tick_to_index hb prec < i).
      { destruct (Z_lt_le_dec (tick_to_index hb prec) i) as [|HH]; [assumption|].
        apply (tick_from_index_mono_le prec _ _ Hp) in HH; [|lia]. unfold T in *; lia. }
      pose proof (tick_to_index_mono_le prec ls hb Hp Tls Thb Hlow Hle). lia. }
    (* p is the tick number k with i <= k <= j *)
    assert (Hti : is_tick prec (T i) /\ lowest_tick prec <= T i) by (apply tick_from_index_tick; lia).
    assert (Htj : is_tick prec (T j)) by (apply tick_from_index_tick; lia).
    assert (Hle_ij : T i <= T j) by (apply tick_from_index_mono1; lia).
    pose proof (tick_pos _ _ (proj1 Hti)) as Hpi.
    destruct (round_between prec (T i) (T j) (dquo_int (T i + T j) 2) Hp (proj1 Hti) Htj (proj2 Hti)) as [_ Hb].
    { unfold dquo_int. rewrite Z.quot_div_nonneg by lia.
      split; [apply Z.div_le_lower_bound|apply Z.div_le_upper_bound]; lia. }
    rewrite <- EF in Hb.
    destruct (tick_from_index_of_index prec p Hp Tp ltac:(lia)) as [Nk Ek].
    set (k := tick_to_index p prec) in *.
    assert (Hk : i <= k <= j).
    { rewrite <- (index_of_tick_from_index prec i Hp ltac:(lia)), <- (index_of_tick_from_index prec j Hp ltac:(lia)).
      destruct Hti as [Hti1 Hti2]. unfold T in *. split; apply tick_to_index_mono_le; try assumption; lia. }
    assert (Fk : f k = true) by (apply (f_mono i k); [lia|lia|assumption]).
    assert (Gk : g k = true) by (apply (g_mono k j); [lia|lia|assumption]).
    unfold f in Fk. unfold g in Gk. cbv zeta in Fk, Gk. apply andb_true_iff in Fk. apply andb_true_iff in Gk.
    destruct Fk as [_ Fk], Gk as [_ Gk]. apply Z.leb_le in Fk, Gk. unfold T in Fk, Gk.
    rewrite tick_from_index_succ in Fk by lia. rewrite Ek in Fk, Gk. split; [assumption|].
    intros Hlt. assert (0 < k).
    { destruct (Z.eq_dec k 0) as [E0|]; [|lia]. exfalso. rewrite E0 in Ek.
      rewrite <- (tick_to_index_lowest prec Hp) in Ek. rewrite (proj2 (tick_from_index_of_index prec _ Hp (lowest_is_tick prec Hp) ltac:(lia))) in Ek. lia. }
    assert (Ed : down_tick p prec = tick_from_index (k - 1) prec).
    { rewrite <- Ek. replace k with (k - 1 + 1) at 1 by lia. rewrite tick_from_index_succ by lia.
      apply down_up_tick; [assumption|]. apply tick_from_index_tick; lia. }
    rewrite Ed. assumption.
  Qed.
End FMP.

(** the book's own view satisfies [good_view] *)
Lemma acc_ticks_ge h : forall ts acc x, (forall t, In t ts -> 0 <= total_matchable h (snd t) (fst t)) ->
  In x (acc_ticks h acc ts) -> acc <= snd x.
Proof.
  induction ts as [|[p ps] ts IH]; intros acc x Hn Hx; [destruct Hx|]. cbn [acc_ticks] in Hx.
  pose proof (Hn (p, ps) (or_introl eq_refl)) as H0. cbn [fst snd] in H0. destruct Hx as [<-|Hx]; [cbn [snd]; lia|].
  apply IH in Hx; [lia|]. intros t Ht. apply Hn. right. assumption.
Qed.

Lemma first_positive_pos h ts : (forall t, In t ts -> 0 < total_matchable h (snd t) (fst t)) ->
  first_positive (acc_ticks h 0 ts) = first_price ts.
Proof.
  intros Hpos. unfold first_positive, first_price. destruct ts as [|[p ps] ts]; [reflexivity|].
  set (l := acc_ticks h 0 ((p, ps) :: ts)).
  assert (Hall : forall i, 0 <= i < lenZ l -> 0 <? snd (nth_acc l i) = true).
  { intros i Hi. apply Z.ltb_lt. unfold nth_acc. unfold lenZ in Hi.
    assert (Hin : In (nth (Z.to_nat i) l (0, 0)) l) by (apply nth_In; lia).
    unfold l in Hin at 2. cbn [acc_ticks] in Hin. pose proof (Hpos (p, ps) (or_introl eq_refl)) as H0. cbn [fst snd] in H0.
    destruct Hin as [E|Hin].
    - rewrite <- E. cbn [snd]. lia.
    - apply acc_ticks_ge in Hin; [lia|]. intros t Ht. specialize (Hpos t (or_intror Ht)). lia. }
  destruct (go_search_spec (lenZ l) (fun i => 0 <? snd (nth_acc l i)) ltac:(unfold lenZ; lia)) as (A & B & C).
  set (r := go_search (lenZ l) _) in *.
  assert (E : r = 0).
  { destruct (Z.eq_dec r 0); [assumption|]. rewrite Hall in C by lia. discriminate C. lia. }
  rewrite E. assert (Hl : 0 < lenZ l) by (unfold l, lenZ; cbn; lia). destruct (Z.leb_spec (lenZ l) 0); [lia|]. reflexivity.
Qed.

Lemma book_tick_positive h d inc ts : wf_heap h ->
  keyed (tick_order inc) (fun p => o_price (get h p)) (filter (listed h d) (seq 0 (length h))) ts ->
  forall t, In t ts -> 0 < total_matchable h (snd t) (fst t).
Proof.
  intros Hwf HK [x ms] Ht. destruct (keyed_members _ _ _ _ _ _ HK Ht) as (_ & Hne & Hm). cbn [fst snd].
  destruct ms as [|p ms]; [congruence|]. rewrite total_matchable_sum.
  assert (Hmem : forall q, In q (p :: ms) -> (q < length h)%nat /\ listed h d q = true /\ o_price (get h q) = x).
  { intros q Hq. apply Hm in Hq. destruct Hq as [Hq E]. apply filter_In in Hq. destruct Hq as [Hq Hl]. apply in_seq in Hq. split; [lia|auto]. }
  destruct (Hmem p (or_introl eq_refl)) as (L1 & L2 & L3). unfold listed in L2. apply andb_true_iff in L2. destruct L2 as [L2 _]. apply Z.ltb_lt in L2.
  assert (matchable_amount (get h p) x <= sumZ (map (fun q => matchable_amount (get h q) x) (p :: ms))).
  { apply (sumZ_in_le (fun q => matchable_amount (get h q) x)); [|left; reflexivity].
    intros q Hq. destruct (Hmem q Hq) as (Q1 & _ & Q3). destruct (Hwf q Q1) as (Hpos & X). rewrite <- Q3.
    apply matchable_le_open; [apply Hwf; assumption|assumption]. }
  rewrite L3 in L2. lia.
Qed.

Lemma first_price_spec (R : Z -> Z -> Prop) (ts : list tick) x : StronglySorted R (map fst ts) ->
  first_price ts = Some x -> In x (map fst ts) /\ forall y, In y (map fst ts) -> y = x \/ R x y.
Proof.
  destruct ts as [|t ts]; [discriminate|]. cbn. intros Hs E. injection E as <-. split; [left; reflexivity|].
  intros y [->|Hy]; [left; reflexivity|]. inversion Hs as [|? ? _ HF]; subst. rewrite Forall_forall in HF. right. auto.
Qed.

(** best prices, in terms of the orders *)
Definition best_buy (h : list order) (b : option dec) : Prop :=
  match b with
  | Some x => (exists o, In o h /\ o_dir o = Buy /\ 0 < matchable_amount o (o_price o) /\ o_price o = x) /\
              forall o, In o h -> o_dir o = Buy -> 0 < matchable_amount o (o_price o) -> o_price o <= x
  | None => forall o, In o h -> o_dir o = Buy -> matchable_amount o (o_price o) <= 0
  end.
Definition best_sell (h : list order) (b : option dec) : Prop :=
  match b with
  | Some x => (exists o, In o h /\ o_dir o = Sell /\ 0 < matchable_amount o (o_price o) /\ o_price o = x) /\
              forall o, In o h -> o_dir o = Sell -> 0 < matchable_amount o (o_price o) -> x <= o_price o
  | None => forall o, In o h -> o_dir o = Sell -> matchable_amount o (o_price o) <= 0
  end.

Lemma side_prices h d inc ts : keyed (tick_order inc) (fun p => o_price (get h p)) (filter (listed h d) (seq 0 (length h))) ts ->
  forall x, In x (map fst ts) <-> exists o, In o h /\ o_dir o = d /\ 0 < matchable_amount o (o_price o) /\ o_price o = x.
Proof.
  intros HK x. rewrite (keyed_keys _ _ _ _ x HK). split.
  - intros (p & Hp & E). apply filter_In in Hp. destruct Hp as [Hp Hl]. apply in_seq in Hp. exists (get h p).
    split; [apply nth_In; lia|]. split; [apply listed_dir; assumption|]. split; [|assumption].
    unfold listed in Hl. apply andb_true_iff in Hl. apply Z.ltb_lt. apply Hl.
  - intros (o & Ho & Hd & Hm & E). destruct (In_nth h o dummy_order Ho) as (p & Hp & Ep). exists p.
    fold (get h p) in Ep. rewrite Ep. split; [|assumption]. apply filter_In. split; [apply in_seq; lia|].
    unfold listed. rewrite Ep, Hd. rewrite (proj2 (Z.ltb_lt _ _) Hm). destruct d; reflexivity.
Qed.

Lemma view_best h : wf_heap h ->
  best_buy h (view_highest_buy (make_view h (new_order_book h))) /\
  best_sell h (view_lowest_sell (make_view h (new_order_book h))).
Proof.
  intros Hwf. destruct (new_order_book_ok h) as [KB KS]. unfold view_highest_buy, view_lowest_sell, make_view. cbn [v_buys v_sells].
  rewrite !first_positive_pos.
  2: exact (book_tick_positive h Sell true _ Hwf KS). 2: exact (book_tick_positive h Buy false _ Hwf KB).
  pose proof (side_prices h Buy false _ KB) as PB. pose proof (side_prices h Sell true _ KS) as PS.
  pose proof (buys_sorted h Hwf) as SB. pose proof (sells_sorted h Hwf) as SS. split.
  - destruct (first_price (buys (new_order_book h))) as [x|] eqn:E; cbn.
    + destruct (first_price_spec _ _ _ SB E) as [Hin Hbest]. split; [apply PB; assumption|].
      intros o Ho Hd Hm. destruct (Hbest (o_price o)) as [->|HR]; [apply PB; eauto 6|lia|cbn in HR; lia].
    + intros o Ho Hd. destruct (Z_lt_le_dec 0 (matchable_amount o (o_price o))) as [Hm|]; [|assumption].
      assert (In (o_price o) (map fst (buys (new_order_book h)))) as Hin by (apply PB; eauto 6).
      destruct (buys (new_order_book h)); [destruct Hin|discriminate].
  - destruct (first_price (sells (new_order_book h))) as [x|] eqn:E; cbn.
    + destruct (first_price_spec _ _ _ SS E) as [Hin Hbest]. split; [apply PS; assumption|].
      intros o Ho Hd Hm. destruct (Hbest (o_price o)) as [->|HR]; [apply PS; eauto 6|lia|cbn in HR; lia].
    + intros o Ho Hd. destruct (Z_lt_le_dec 0 (matchable_amount o (o_price o))) as [Hm|]; [|assumption].
      assert (In (o_price o) (map fst (sells (new_order_book h)))) as Hin by (apply PS; eauto 6).
      destruct (sells (new_order_book h)); [destruct Hin|discriminate].
Qed.

Lemma depth_pos h keep : Forall wf_order h ->
  0 < depth keep h <-> exists o, In o h /\ keep o = true /\ 0 < matchable_amount o (o_price o).
Proof.
  intros Hwf. rewrite Forall_forall in Hwf. unfold depth.
  assert (Hn : forall o, In o h -> 0 <= (if keep o then matchable_amount o (o_price o) else 0)).
  { intros o Ho. destruct (Hwf o Ho) as (Hp & X). destruct (keep o); [|lia]. apply matchable_le_open; [apply Hwf; assumption|assumption]. }
  split.
  - intros H. clear Hwf. induction h as [|o h IH]; [cbn in H; lia|]. cbn [map] in H. rewrite sumZ_cons in H.
    pose proof (Hn o (or_introl eq_refl)). destruct (Z_lt_le_dec 0 (if keep o then matchable_amount o (o_price o) else 0)) as [L|L].
    + destruct (keep o) eqn:E; [|lia]. exists o. split; [left; reflexivity|auto].
    + destruct IH as (o' & A & B); [intros; apply Hn; right; assumption|lia|]. exists o'. split; [right; assumption|assumption].
  - intros (o & Ho & Hk & Hm). pose proof (sumZ_in_le (fun o => if keep o then matchable_amount o (o_price o) else 0) h o Hn Ho) as H. cbv beta in H. rewrite Hk in H. lia.
Qed.

Lemma book_good_view h : Forall wf_order h -> good_view (ov_of_view (make_view h (new_order_book h))).
Proof.
  intros Hf. pose proof (proj1 (wf_heap_Forall h) Hf) as Hwf. destruct (view_best h Hwf) as [BB BS].
  constructor; cbn [ov_of_view ov_buy_over ov_sell_under ov_highest_buy ov_lowest_sell].
  - intros p q Hpq. rewrite !view_buy_over_depth by assumption. apply depth_mono; [assumption|].
    intros o. unfold buy_ge. rewrite !andb_true_iff, !Z.leb_le. intros [A B]. split; [assumption|lia].
  - intros p q Hpq. rewrite !view_sell_under_depth by assumption. apply depth_mono; [assumption|].
    intros o. unfold sell_le. rewrite !andb_true_iff, !Z.leb_le. intros [A B]. split; [assumption|lia].
  - intros p. rewrite view_buy_over_depth by assumption. rewrite depth_pos by assumption.
    destruct (view_highest_buy _) as [x|]; cbn in BB.
    + destruct BB as [(o & A & B & C & D) E]. split.
      * intros (o' & A' & B' & C'). exists x. split; [reflexivity|]. unfold buy_ge in B'. apply andb_true_iff in B'. destruct B' as [B1 B2].
        apply Z.leb_le in B2. specialize (E o' A'). destruct (o_dir o'); [|discriminate]. specialize (E eq_refl C'). lia.
      * intros (hb & Ehb & Hle). injection Ehb as <-. exists o. split; [assumption|]. split; [|assumption]. unfold buy_ge. rewrite B. cbn. apply Z.leb_le. lia.
    + split; [|intros (hb & Ehb & _); discriminate]. intros (o' & A' & B' & C'). specialize (BB o' A'). unfold buy_ge in B'.
      destruct (o_dir o'); [|discriminate]. specialize (BB eq_refl). lia.
  - intros p. rewrite view_sell_under_depth by assumption. rewrite depth_pos by assumption.
    destruct (view_lowest_sell _) as [x|]; cbn in BS.
    + destruct BS as [(o & A & B & C & D) E]. split.
      * intros (o' & A' & B' & C'). exists x. split; [reflexivity|]. unfold sell_le in B'. apply andb_true_iff in B'. destruct B' as [B1 B2].
        apply Z.leb_le in B2. specialize (E o' A'). destruct (o_dir o'); [discriminate|]. specialize (E eq_refl C'). lia.
      * intros (hb & Ehb & Hle). injection Ehb as <-. exists o. split; [assumption|]. split; [|assumption]. unfold sell_le. rewrite B. cbn. apply Z.leb_le. lia.
    + split; [|intros (hb & Ehb & _); discriminate]. intros (o' & A' & B' & C'). specialize (BS o' A'). unfold sell_le in B'.
      destruct (o_dir o'); [discriminate|]. specialize (BS eq_refl). lia.
Qed.

(** ** MultipleOrderViews *)
Lemma opt_better_fold {A} (gt : Z -> Z -> bool) (le : Z -> Z -> Prop) (get : A -> option Z) vs :
  (forall a b, gt a b = true -> le b a) -> (forall a b, gt a b = false -> le a b) -> (forall a, le a a) ->
  (forall a b c, le a b -> le b c -> le a c) ->
  forall acc, match fold_left (fun a v => opt_better gt a (get v)) vs acc with
  | None => acc = None /\ forall v, In v vs -> get v = None
  | Some x => (acc = Some x \/ exists v, In v vs /\ get v = Some x) /\
              (forall y, acc = Some y -> le y x) /\ forall v y, In v vs -> get v = Some y -> le y x
  end.
Proof.
  intros G1 G2 Hr Ht. induction vs as [|v vs IH]; intros acc; cbn [fold_left].
  - destruct acc as [x|]; [|split; [reflexivity|intros v []]].
    split; [left; reflexivity|]. split; [intros y E; injection E as ->; apply Hr|intros v y []].
  - specialize (IH (opt_better gt acc (get v))). destruct (fold_left _ vs _) as [x|].
    + destruct IH as (I1 & I2 & I3). unfold opt_better in *. destruct (get v) as [p|] eqn:Ev.
      * destruct acc as [a|].
        -- destruct (gt p a) eqn:Eg.
           ++ split; [destruct I1 as [I1|(w & W1 & W2)]; right; [exists v; split; [left; reflexivity|congruence]|exists w; split; [right; assumption|assumption]]|].
              split; [intros y E; injection E as ->; eapply Ht; [apply G1; exact Eg|apply I2; reflexivity]|].
              intros w y [<-|Hw] E; [apply I2; congruence|eauto].
           ++ split; [destruct I1 as [I1|(w & W1 & W2)]; [left; assumption|right; exists w; split; [right; assumption|assumption]]|].
              split; [assumption|]. intros w y [<-|Hw] E; [rewrite Ev in E; injection E as <-; eapply Ht; [apply G2; exact Eg|apply I2; reflexivity]|eauto].
        -- split; [destruct I1 as [I1|(w & W1 & W2)]; right; [exists v; split; [left; reflexivity|congruence]|exists w; split; [right; assumption|assumption]]|].
           split; [discriminate|]. intros w y [<-|Hw] E; [apply I2; congruence|eauto].
      * split; [destruct I1 as [I1|(w & W1 & W2)]; [left; assumption|right; exists w; split; [right; assumption|assumption]]|].
        split; [assumption|]. intros w y [<-|Hw] E; [congruence|eauto].
    + destruct IH as [I1 I2]. unfold opt_better in I1. destruct (get v) as [p|] eqn:Ev.
      * destruct acc as [a|]; [destruct (gt p a)|]; discriminate.
      * split; [assumption|]. intros w [<-|Hw]; auto.
Qed.

Lemma multi_good_view vs : Forall good_view vs -> good_view (multi_view vs).
Proof.
  intros HF. rewrite Forall_forall in HF.
  constructor; cbn [multi_view ov_buy_over ov_sell_under ov_highest_buy ov_lowest_sell].
  - intros p q Hpq. rewrite !fold_left_sum. split.
    + assert (0 <= sumZ (map (fun v => ov_buy_over v q true) vs)); [|lia]. apply sumZ_map_nonneg. intros v Hv. apply (gv_buy _ (HF v Hv) q q). lia.
    + assert (sumZ (map (fun v => ov_buy_over v q true) vs) <= sumZ (map (fun v => ov_buy_over v p true) vs)); [|lia].
      apply sumZ_map_le. intros v Hv. apply (gv_buy _ (HF v Hv) p q). lia.
  - intros p q Hpq. rewrite !fold_left_sum. split.
    + assert (0 <= sumZ (map (fun v => ov_sell_under v p true) vs)); [|lia]. apply sumZ_map_nonneg. intros v Hv. apply (gv_sell _ (HF v Hv) p p). lia.
    + assert (sumZ (map (fun v => ov_sell_under v p true) vs) <= sumZ (map (fun v => ov_sell_under v q true) vs)); [|lia].
      apply sumZ_map_le. intros v Hv. apply (gv_sell _ (HF v Hv) p q). lia.
  - intros p. rewrite fold_left_sum, Z.add_0_l.
    pose proof (opt_better_fold Z.gtb Z.le ov_highest_buy vs) as O.
    specialize (O ltac:(intros a b H; apply Z.gtb_lt in H; lia) ltac:(intros a b H; rewrite Z.gtb_ltb in H; apply Z.ltb_ge in H; lia) Z.le_refl Z.le_trans None).
    destruct (fold_left _ vs None) as [x|].
    + destruct O as ([O1|(w & W1 & W2)] & _ & O3); [discriminate|]. split.
      * intros H. exists x. split; [reflexivity|].
        assert (E : exists v, In v vs /\ 0 < ov_buy_over v p true).
        { clear - H. induction vs as [|v vs IH]; [cbn in H; lia|]. cbn [map] in H. rewrite sumZ_cons in H.
          destruct (Z_lt_le_dec 0 (ov_buy_over v p true)); [exists v; split; [left; reflexivity|assumption]|].
          destruct IH as (w & A & B); [lia|]. exists w. split; [right; assumption|assumption]. }
        destruct E as (v & Hv & Hpos). apply (gv_hb _ (HF v Hv)) in Hpos. destruct Hpos as (hb & E1 & E2).
        specialize (O3 v hb Hv E1). lia.
      * intros (hb & Ehb & Hle). injection Ehb as <-.
        assert (0 < ov_buy_over w p true) by (apply (gv_hb _ (HF w W1)); eauto).
        pose proof (sumZ_in_le (fun v => ov_buy_over v p true) vs w) as S. cbn in S.
        specialize (S ltac:(intros y Hy; apply (gv_buy _ (HF y Hy) p p); lia) W1). lia.
    + destruct O as [_ O]. split; [|intros (hb & Ehb & _); discriminate]. intros H. exfalso.
      assert (sumZ (map (fun v => ov_buy_over v p true) vs) <= sumZ (map (fun _ => 0) vs)).
      { apply sumZ_map_le. intros v Hv. destruct (Z_lt_le_dec 0 (ov_buy_over v p true)) as [L|]; [|assumption].
        apply (gv_hb _ (HF v Hv)) in L. destruct L as (hb & E & _). rewrite (O v Hv) in E. discriminate. }
      assert (sumZ (map (fun _ : order_view => 0) vs) = 0) by (clear; induction vs as [|v vs IH]; [reflexivity|cbn [map]; rewrite sumZ_cons; lia]). lia.
  - intros p. rewrite fold_left_sum, Z.add_0_l.
    pose proof (opt_better_fold Z.ltb Z.ge ov_lowest_sell vs) as O.
    specialize (O ltac:(intros a b H; apply Z.ltb_lt in H; lia) ltac:(intros a b H; apply Z.ltb_ge in H; lia) ltac:(intros; lia) ltac:(intros; lia) None).
    destruct (fold_left _ vs None) as [x|].
    + destruct O as ([O1|(w & W1 & W2)] & _ & O3); [discriminate|]. split.
      * intros H. exists x. split; [reflexivity|].
        assert (E : exists v, In v vs /\ 0 < ov_sell_under v p true).
        { clear - H. induction vs as [|v vs IH]; [cbn in H; lia|]. cbn [map] in H. rewrite sumZ_cons in H.
          destruct (Z_lt_le_dec 0 (ov_sell_under v p true)); [exists v; split; [left; reflexivity|assumption]|].
          destruct IH as (w & A & B); [lia|]. exists w. split; [right; assumption|assumption]. }
        destruct E as (v & Hv & Hpos). apply (gv_ls _ (HF v Hv)) in Hpos. destruct Hpos as (hb & E1 & E2).
        specialize (O3 v hb Hv E1). lia.
      * intros (hb & Ehb & Hle). injection Ehb as <-.
        assert (0 < ov_sell_under w p true) by (apply (gv_ls _ (HF w W1)); eauto).
        pose proof (sumZ_in_le (fun v => ov_sell_under v p true) vs w) as S. cbn in S.
        specialize (S ltac:(intros y Hy; apply (gv_sell _ (HF y Hy) p p); lia) W1). lia.
    + destruct O as [_ O]. split; [|intros (hb & Ehb & _); discriminate]. intros H. exfalso.
      assert (sumZ (map (fun v => ov_sell_under v p true) vs) <= sumZ (map (fun _ => 0) vs)).
      { apply sumZ_map_le. intros v Hv. destruct (Z_lt_le_dec 0 (ov_sell_under v p true)) as [L|]; [|assumption].
        apply (gv_ls _ (HF v Hv)) in L. destruct L as (hb & E & _). rewrite (O v Hv) in E. discriminate. }
      assert (sumZ (map (fun _ : order_view => 0) vs) = 0) by (clear; induction vs as [|v vs IH]; [reflexivity|cbn [map]; rewrite sumZ_cons; lia]). lia.
Qed.

(** ** The first match price of a book of tick-priced orders *)
Lemma depth_ext_in f g h : (forall o, In o h -> f o = g o) -> depth f h = depth g h.
Proof. intros H. unfold depth. apply sumZ_map_ext. intros o Ho. rewrite (H o Ho). reflexivity. Qed.

Lemma lowest_lt_highest prec : 0 <= prec <= 88 -> lowest_tick prec < highest_tick prec.
Proof.
  intros Hp. destruct (price_to_down_tick_spec (2 ^ 300 - 1) prec ltac:(lia) eq_refl) as (_ & _ & H).
  fold (highest_tick prec) in H. specialize (H (10 ^ (prec + 1)) (pow_is_tick prec (prec + 1) ltac:(lia) ltac:(lia))).
  assert (10 ^ (prec + 1) <= 10 ^ 89) by (apply pow10_le; lia).
  assert (10 ^ 89 <= 2 ^ 300 - 1) by (vm_compute; discriminate).
  unfold lowest_tick. pose proof (pow10_S prec ltac:(lia)). pose proof (pow10_pos prec ltac:(lia)). lia.
Qed.

Lemma book_match_price prec h : 0 <= prec <= 88 -> Forall wf_order h ->
  (forall o, In o h -> is_tick prec (o_price o) /\ lowest_tick prec <= o_price o <= highest_tick prec) ->
  match find_match_price (ov_of_view (make_view h (new_order_book h))) prec with
  | Some p => is_tick prec p /\
      (exists b s, In b h /\ In s h /\ o_dir b = Buy /\ o_dir s = Sell /\
         0 < matchable_amount b (o_price b) /\ 0 < matchable_amount s (o_price s) /\ o_price s <= p <= o_price b) /\
      depth (buy_gt p) h <= depth (sell_le p) h /\ depth (sell_lt p) h <= depth (buy_ge p) h
  | None => forall b s, In b h -> In s h -> o_dir b = Buy -> o_dir s = Sell ->
         0 < matchable_amount b (o_price b) -> 0 < matchable_amount s (o_price s) -> o_price b < o_price s
  end.
Proof.
  intros Hp Hf Ht. pose proof (proj1 (wf_heap_Forall h) Hf) as Hwf. pose proof (book_good_view h Hf) as G.
  destruct (view_best h Hwf) as [BB BS]. pose proof (lowest_lt_highest prec Hp) as Hr.
  set (ov := ov_of_view (make_view h (new_order_book h))) in *.
  assert (Ebb : ov_highest_buy ov = view_highest_buy (make_view h (new_order_book h))) by reflexivity.
  assert (Ebs : ov_lowest_sell ov = view_lowest_sell (make_view h (new_order_book h))) by reflexivity.
  rewrite <- Ebb in BB. rewrite <- Ebs in BS. clear Ebb Ebs.
  destruct (ov_highest_buy ov) as [hb|] eqn:Ehb.
  2:{ rewrite find_match_price_none; [|intros hb ls E; rewrite Ehb in E; discriminate].
      intros b s Hb Hs Db Ds Mb Ms. cbn in BB. specialize (BB b Hb Db). lia. }
  destruct (ov_lowest_sell ov) as [ls|] eqn:Els.
  2:{ rewrite find_match_price_none; [|intros hb' ls E1 E2; rewrite Els in E2; discriminate].
      intros b s Hb Hs Db Ds Mb Ms. cbn in BS. specialize (BS s Hs Ds). lia. }
  destruct BB as [(b & B1 & B2 & B3 & B4) BB]. destruct BS as [(s & S1 & S2 & S3 & S4) BS].
  destruct (Z_lt_le_dec hb ls) as [Hlt|Hle].
  - rewrite find_match_price_none.
    + intros b' s' Hb Hs Db Ds Mb Ms. specialize (BB b' Hb Db Mb). specialize (BS s' Hs Ds Ms). lia.
    + intros hb' ls' E1 E2. rewrite Ehb in E1. rewrite Els in E2. injection E1 as <-. injection E2 as <-. assumption.
  - destruct (Ht b B1) as [Tb Rb]. destruct (Ht s S1) as [Ts Rs]. rewrite B4 in Tb, Rb. rewrite S4 in Ts, Rs.
    destruct (find_match_price_balance ov prec ltac:(lia) Hr G hb ls Ehb Els Hle ltac:(lia) ltac:(lia) Tb Ts)
      as (p & Ep & Tp & Hpb & Bal1 & Bal2).
    rewrite Ep. split; [assumption|]. split; [exists b, s; do 6 (split; [assumption|]); lia|].
    pose proof (tick_pos _ _ Tp) as Hpp.
    destruct (up_tick_spec p prec ltac:(lia) Hpp) as (U1 & U2 & U3).
    split.
    + unfold ov in Bal1. cbn [ov_of_view ov_buy_over ov_sell_under] in Bal1.
      rewrite view_buy_over_depth, view_sell_under_depth in Bal1 by assumption.
      rewrite (depth_ext_in (buy_gt p) (buy_ge (up_tick p prec))); [assumption|].
      intros o Ho. unfold buy_gt, buy_ge. f_equal. destruct (Ht o Ho) as [To _].
      destruct (Z.ltb_spec p (o_price o)); destruct (Z.leb_spec (up_tick p prec) (o_price o)); try reflexivity; exfalso; [|lia].
      specialize (U3 (o_price o) To). lia.
    + destruct (Z.eq_dec p (lowest_tick prec)) as [El|Nl].
      * rewrite (depth_ext_in (sell_lt p) (fun _ => false)).
        -- unfold depth at 1. cbn. assert (0 <= depth (buy_ge p) h) by (apply (depth_mono _ (buy_ge p)); auto).
           assert (sumZ (map (fun _ : order => 0) h) = 0) by (clear; induction h as [|o h IH]; [reflexivity|cbn [map]; rewrite sumZ_cons; lia]). lia.
        -- intros o Ho. unfold sell_lt. destruct (Ht o Ho) as [_ Ro]. destruct (Z.ltb_spec (o_price o) p); [lia|apply andb_false_r].
      * assert (Hgt : lowest_tick prec < p) by lia. specialize (Bal2 Hgt).
        unfold ov in Bal2. cbn [ov_of_view ov_buy_over ov_sell_under] in Bal2.
        rewrite view_buy_over_depth, view_sell_under_depth in Bal2 by assumption.
        pose proof (tick_pos _ _ (lowest_is_tick prec ltac:(lia))).
        destruct (down_tick_spec p prec ltac:(lia) ltac:(lia)) as (D1 & D2 & D3).
        rewrite (depth_ext_in (sell_lt p) (sell_le (down_tick p prec))); [assumption|].
        intros o Ho. unfold sell_lt, sell_le. f_equal. destruct (Ht o Ho) as [To _].
        destruct (Z.ltb_spec (o_price o) p); destruct (Z.leb_spec (o_price o) (down_tick p prec)); try reflexivity; exfalso; [|lia].
        specialize (D3 (o_price o) To). lia.
Qed.

Lemma multi_view_best (vs : list order_view) :
  match ov_highest_buy (multi_view vs) with
  | Some x => (exists v, In v vs /\ ov_highest_buy v = Some x) /\ (forall v y, In v vs -> ov_highest_buy v = Some y -> y <= x)
  | None => forall v, In v vs -> ov_highest_buy v = None
  end /\
  match ov_lowest_sell (multi_view vs) with
  | Some x => (exists v, In v vs /\ ov_lowest_sell v = Some x) /\ (forall v y, In v vs -> ov_lowest_sell v = Some y -> x <= y)
  | None => forall v, In v vs -> ov_lowest_sell v = None
  end /\
  (forall p incl, ov_buy_over (multi_view vs) p incl = sumZ (map (fun v => ov_buy_over v p incl) vs)) /\
  (forall p incl, ov_sell_under (multi_view vs) p incl = sumZ (map (fun v => ov_sell_under v p incl) vs)).
Proof.
  cbn [multi_view ov_buy_over ov_sell_under ov_highest_buy ov_lowest_sell]. split; [|split; [|split]].
  - pose proof (opt_better_fold Z.gtb Z.le ov_highest_buy vs) as O.
    specialize (O ltac:(intros a b H; apply Z.gtb_lt in H; lia) ltac:(intros a b H; rewrite Z.gtb_ltb in H; apply Z.ltb_ge in H; lia) Z.le_refl Z.le_trans None).
    destruct (fold_left _ vs None) as [x|]; [|apply O]. destruct O as ([O1|O1] & _ & O3); [discriminate|]. auto.
  - pose proof (opt_better_fold Z.ltb Z.ge ov_lowest_sell vs) as O.
    specialize (O ltac:(intros a b H; apply Z.ltb_lt in H; lia) ltac:(intros a b H; apply Z.ltb_ge in H; lia) ltac:(intros; lia) ltac:(intros; lia) None).
    destruct (fold_left _ vs None) as [x|]; [|apply O]. destruct O as ([O1|O1] & _ & O3); [discriminate|]. split; [assumption|].
    intros v y Hv E. specialize (O3 v y Hv E). lia.
  - intros p incl. rewrite fold_left_sum. lia.
  - intros p incl. rewrite fold_left_sum. lia.
Qed.
