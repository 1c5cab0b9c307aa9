(** Property C81: who is served first.  Among orders on one side with the same price and batch the larger
    order, and among equals users before pools and the lower id, gets at least as much as the others.
    And the price range an order book reports (C10). *)
From Verif Require Import Base Dec DecProofs OrderModel MatchModel MatchSpec FairSpec OrderProofs MatchProofs MatchLoopProofs MatchBookProofs MatchTop MatchFair Props_Cross.
From Coq Require Import Sorted.

(** One match at one price: [i] gets at least what [j] gets, if it can take as much. *)
Theorem C81_first_served : forall iter h mp h' qd, is_perm_iter iter -> Forall wf_order h -> Forall owned h -> 0 < mp -> match_single iter h (new_order_book h) mp = Some (Some (h', qd)) ->
  forall i j, (i < length h)%nat -> (j < length h)%nat -> o_dir (get h i) = o_dir (get h j) -> o_price (get h i) = o_price (get h j) -> o_batch (get h i) = o_batch (get h j) ->
    goes_first (get h i) (get h j) -> 0 < matchable_amount (get h i) (o_price (get h i)) -> matchable_amount (get h j) mp <= matchable_amount (get h i) mp ->
    o_open (get h j) - o_open (get h' j) <= o_open (get h i) - o_open (get h' i).
Proof.
  intros iter h mp h' qd Hi Hw Ho Hmp E i j Li Lj D P B F M1 M2.
  apply (single_fair iter Hi h mp h' qd i j Hmp (proj1 (wf_heap_Forall h) Hw)); auto.
  intros p Hp. apply (proj1 (Forall_forall _ _) Ho). unfold get. apply nth_In. exact Hp.
Qed.
Print Assumptions C81_first_served.

(** New orders, whose buys can pay for the whole amount: no further condition. *)
Definition funded (o : order) : Prop := o_dir o = Buy -> ceil_value (o_price o) (o_amt o) <= o_offer o.

Lemma fresh_le o o' p : fresh_order o -> funded o -> fresh_order o' -> o_dir o' = o_dir o -> o_amt o' <= o_amt o -> 0 < p -> accepts o p -> matchable_amount o' p <= matchable_amount o p.
Proof.
  intros F U F' D A Hp Ac. pose proof P18_pos as H18. destruct (matchable_greatest o p (fresh_wf o F) Hp) as (M1 & M2 & _). destruct (matchable_greatest o' p (fresh_wf o' F') Hp) as (N1 & _ & N3).
  destruct F as (P0 & A0 & O1 & O2 & O3 & _). destruct F' as (_ & A0' & O1' & _). destruct (Z.eq_dec (matchable_amount o' p) 0) as [E|N]; [lia|].
  apply M2; [|exact (N3 N)]. rewrite O1. rewrite O1' in N1. split; [lia|]. intros B. specialize (U B). unfold accepts in Ac. rewrite B in Ac. rewrite O3, Z.sub_0_r.
  refine (Z.le_trans _ _ _ _ U). unfold ceil_value. apply Z.opp_le_mono. rewrite !Z.opp_involutive. apply Z.div_le_mono; [lia|]. nia.
Qed.

Lemma trace_accepts h tr h' f : trace h tr h' -> In f tr -> accepts (get h (f_ptr f)) (f_price f).
Proof.
  induction 1 as [h|h i a p rest h' Hi Hp Ha Hacc Htr IH]; intros Hf; [destruct Hf|]. destruct Hf as [<-|Hf]; [exact Hacc|]. specialize (IH Hf). revert IH.
  destruct (Nat.eq_dec i (f_ptr f)) as [E|Hne]; [rewrite <- E, get_upd_same by assumption; unfold accepts, filled; cbn; auto|rewrite get_upd_other by assumption; auto].
Qed.

Theorem C81_new_orders : forall iter h mp h' qd, is_perm_iter iter -> Forall fresh_order h -> Forall funded h -> Forall owned h -> 0 < mp -> match_single iter h (new_order_book h) mp = Some (Some (h', qd)) ->
  forall i j, (i < length h)%nat -> (j < length h)%nat -> o_dir (get h i) = o_dir (get h j) -> o_price (get h i) = o_price (get h j) -> o_batch (get h i) = o_batch (get h j) ->
    goes_first (get h i) (get h j) -> o_open (get h j) - o_open (get h' j) <= o_open (get h i) - o_open (get h' i).
Proof.
  intros iter h mp h' qd Hi Hf Hu Ho Hmp E i j Li Lj D P B F.
  assert (Hw : Forall wf_order h) by (revert Hf; apply Forall_impl; apply fresh_wf). pose proof (proj1 (wf_heap_Forall h) Hw) as W. destruct (book_side_wf h W) as [HB HS].
  assert (Fi : fresh_order (get h i)) by (apply (proj1 (Forall_forall _ _) Hf), nth_In, Li). assert (Fj : fresh_order (get h j)) by (apply (proj1 (Forall_forall _ _) Hf), nth_In, Lj).
  assert (Ui : funded (get h i)) by (apply (proj1 (Forall_forall _ _) Hu), nth_In, Li). assert (A : o_amt (get h j) <= o_amt (get h i)) by (destruct F as [F|[F _]]; lia).
  destruct (match_single_ok iter Hi h (new_order_book h) mp W Hmp HB HS) as (r & E2 & Hr). rewrite E in E2. injection E2 as <-. destruct Hr as (tr & M & _ & Pr & _).
  destruct (in_dec Nat.eq_dec j (map f_ptr tr)) as [Hj|Hj].
  - apply in_map_iff in Hj. destruct Hj as (f & Ef & Hin). pose proof (mr_in _ _ _ _ _ _ M f Hin) as Bk. rewrite Ef in Bk. destruct (new_book_contents h) as [(_ & _ & CB & _) (_ & _ & CS & _)].
    assert (Mj : 0 < matchable_amount (get h j) (o_price (get h j))) by (apply in_app_iff in Bk; destruct Bk as [X|X]; [apply CB in X|apply CS in X]; apply X).
    assert (Ac : accepts (get h j) mp) by (pose proof (trace_accepts _ _ _ f (mr_trace _ _ _ _ _ _ M) Hin) as X; rewrite Ef, (Pr f Hin) in X; exact X).
    apply (C81_first_served iter h mp h' qd Hi Hw Ho Hmp E i j Li Lj D P B F).
    + apply (Z.lt_le_trans _ _ _ Mj). rewrite <- P. apply fresh_le; try assumption; [congruence|apply Fi|]. unfold accepts. destruct (o_dir (get h i)); lia.
    + apply fresh_le; try assumption; [congruence|]. unfold accepts in *. rewrite D, P. exact Ac.
  - pose proof (trace_got h tr h' i (mr_trace _ _ _ _ _ _ M)) as G. unfold got in G. rewrite (trace_other _ _ _ j (mr_trace _ _ _ _ _ _ M) Hj). lia.
Qed.
Print Assumptions C81_new_orders.

(** The same inside one price level of a match that goes through several prices. *)
Theorem C81_level : forall iter h d t amt price h' qd, is_perm_iter iter -> Forall wf_order h -> 0 < price -> ptrs_ok h (snd t) d price -> 0 <= amt ->
  (forall q, In q (snd t) -> owned (get h q)) -> distribute_to_tick iter h t amt price = Some (h', qd) ->
  forall i j, In i (snd t) -> In j (snd t) -> o_batch (get h i) = o_batch (get h j) -> goes_first (get h i) (get h j) -> matchable_amount (get h j) price <= matchable_amount (get h i) price ->
    o_open (get h j) - o_open (get h' j) <= o_open (get h i) - o_open (get h' i).
Proof.
  intros iter h d t amt price h' qd Hi Hw Hp Hok Ha Ho E i j Ii Ij B F M. exact (tick_fair iter Hi price d t h amt h' qd i j Hp (proj1 (wf_heap_Forall h) Hw) Hok Ha Ii Ij B Ho F M E).
Qed.
Print Assumptions C81_level.

(** Two users and two pools each sell 500 coins, and 1501 or 501 are bought: the odd coin goes to the user, or
    pool, with the lower id, although its order comes later. *)
Definition pool_sell (price amt : Z) (id : Z) : order := new_order Sell price amt amt 0 (KPool id).
Definition fair1 (demand : Z) : list order := [pool_sell P18 500 5; pool_sell P18 500 4; mk Sell P18 500 1 7; mk Sell P18 500 1 3; mk Buy P18 demand 1 9].
Definition filled_of (h : list order) : list Z :=
  match match_single idl h (new_order_book h) P18 with Some (Some (h', _)) => map (fun q => got h h' q) (seq 0 (length h)) | _ => [] end.
Example C81_example : (forall n, Forall owned (fair1 n)) /\ Forall fresh_order (fair1 1501) /\ Forall funded (fair1 1501) /\ goes_first (get (fair1 1501) 1) (get (fair1 1501) 0) /\
  goes_first (get (fair1 501) 3) (get (fair1 501) 2) /\ filled_of (fair1 1501) = [250; 251; 500; 500; 1501] /\ filled_of (fair1 501) = [0; 0; 250; 251; 501].
Proof.
  split; [intros n; repeat constructor; discriminate|]. split; [repeat constructor; cbn; lia|].
  split; [repeat constructor; intros H; try discriminate H; vm_compute; discriminate|]. split; [right; split; [reflexivity|cbn; lia]|]. split; [right; split; [reflexivity|cbn; lia]|]. split; vm_compute; reflexivity.
Qed.

(** The price range of a book: the highest and the lowest price over its orders, of both sides. *)
Definition in_book (h : list order) (p : nat) : Prop := (p < length h)%nat /\ 0 < matchable_amount (get h p) (o_price (get h p)).

Lemma last_tick_in ts p : last_tick_price ts = Some p -> exists ps, In (p, ps) ts.
Proof.
  unfold last_tick_price. destruct ts as [|t r]; [discriminate|]. intros H. injection H as <-. revert t. induction r as [|u r IH]; intros t; [exists (snd t); left; destruct t; reflexivity|].
  destruct (IH u) as [ps Hps]. exists ps. right. replace (last (u :: r) t) with (last r u); [exact Hps|]. clear. revert u t. induction r as [|v r IH]; intros; [reflexivity|]. cbn [last] in *. destruct r; [reflexivity|]. apply (IH u t).
Qed.
Lemma last_tick_end (R : Z -> Z -> Prop) ts p : StronglySorted R (map fst ts) -> last_tick_price ts = Some p -> forall t : tick, In t ts -> fst t = p \/ R (fst t) p.
Proof.
  unfold last_tick_price. destruct ts as [|t r]; [discriminate|]. intros HS H. injection H as <-. revert t HS. induction r as [|u r IH]; intros t HS x Hx; [destruct Hx as [<-|[]]; left; reflexivity|].
  assert (L : last (u :: r) t = last r u) by (clear; revert u t; induction r as [|v r IH]; intros; [reflexivity|]; cbn [last] in *; destruct r; [reflexivity|]; apply (IH u t)).
  rewrite L. cbn [map] in HS. apply StronglySorted_inv in HS. destruct HS as [HS HF]. destruct Hx as [<-|Hx]; [|exact (IH u HS x Hx)].
  right. rewrite Forall_forall in HF. apply HF. replace (fst (last r u)) with (fst (last r u)) by reflexivity.
  assert (X : exists ps, In (fst (last r u), ps) (u :: r)) by (apply last_tick_in; reflexivity). destruct X as [ps X]. apply (in_map fst) in X. exact X.
Qed.
Lemma first_tick (R : Z -> Z -> Prop) ts p : StronglySorted R (map fst ts) -> first_price ts = Some p -> (exists ps, In (p, ps) ts) /\ forall t : tick, In t ts -> fst t = p \/ R p (fst t).
Proof.
  unfold first_price. destruct ts as [|t r]; [discriminate|]. intros HS H. injection H as <-. split; [exists (snd t); left; destruct t; reflexivity|]. intros x [<-|Hx]; [left; reflexivity|right].
  cbn [map] in HS. apply StronglySorted_inv in HS. destruct HS as [_ HF]. rewrite Forall_forall in HF. apply HF. apply in_map. exact Hx.
Qed.

Theorem C10_price_range : forall h,
  (forall p, book_highest_price (new_order_book h) = Some p <-> (exists q, in_book h q /\ o_price (get h q) = p) /\ forall q, in_book h q -> o_price (get h q) <= p) /\
  (forall p, book_lowest_price (new_order_book h) = Some p <-> (exists q, in_book h q /\ o_price (get h q) = p) /\ forall q, in_book h q -> p <= o_price (get h q)).
Proof.
  intros h. destruct (new_book_contents h) as [(SB & _ & CB & TB) (SS & _ & CS & TS)]. set (ob := new_order_book h) in *.
  assert (InB : forall x ps, In (x, ps) (buys ob) -> exists q, in_book h q /\ o_price (get h q) = x).
  { intros x ps X. destruct (TB x ps X) as (N & _ & M). destruct ps as [|q ps]; [congruence|]. destruct (proj1 (M q) (or_introl eq_refl)) as ((A & _ & B) & C). exists q. split; [split; assumption|exact C]. }
  assert (InS : forall x ps, In (x, ps) (sells ob) -> exists q, in_book h q /\ o_price (get h q) = x).
  { intros x ps X. destruct (TS x ps X) as (N & _ & M). destruct ps as [|q ps]; [congruence|]. destruct (proj1 (M q) (or_introl eq_refl)) as ((A & _ & B) & C). exists q. split; [split; assumption|exact C]. }
  assert (Tk : forall q, in_book h q -> (exists ps, In (o_price (get h q), ps) (buys ob)) \/ (exists ps, In (o_price (get h q), ps) (sells ob))).
  { intros q [A B]. destruct (o_dir (get h q)) eqn:D; [left|right].
    - assert (X : In q (flat_map snd (buys ob))) by (apply CB; repeat split; assumption). apply in_flat_map in X. destruct X as ([x ps] & X & Y). exists ps. destruct (TB x ps X) as (_ & _ & M). rewrite (proj2 (proj1 (M q) Y)). exact X.
    - assert (X : In q (flat_map snd (sells ob))) by (apply CS; repeat split; assumption). apply in_flat_map in X. destruct X as ([x ps] & X & Y). exists ps. destruct (TS x ps X) as (_ & _ & M). rewrite (proj2 (proj1 (M q) Y)). exact X. }
  assert (Em : forall ts : list tick, first_price ts = None \/ last_tick_price ts = None -> ts = []) by (intros [|t r] [X|X]; [reflexivity|reflexivity|discriminate X|discriminate X]).
  assert (Hi : exists r, book_highest_price ob = r /\ match r with Some p => (exists q, in_book h q /\ o_price (get h q) = p) /\ (forall q, in_book h q -> o_price (get h q) <= p) | None => forall q, ~ in_book h q end).
  { eexists. split; [reflexivity|]. unfold book_highest_price, buys_highest, sells_highest. destruct (first_price (buys ob)) as [b|] eqn:Eb; destruct (last_tick_price (sells ob)) as [s|] eqn:Es.
    - destruct (first_tick _ _ _ SB Eb) as [[ps Pb] Fb]. destruct (last_tick_in _ _ Es) as [qs Ps]. pose proof (last_tick_end _ _ _ SS Es) as Fs. split.
      + destruct (Z.max_spec b s) as [[_ ->]|[_ ->]]; eauto.
      + intros q Hq. destruct (Tk q Hq) as [[x X]|[x X]]; [specialize (Fb _ X)|specialize (Fs _ X)]; cbn [fst] in *; lia.
    - destruct (first_tick _ _ _ SB Eb) as [[ps Pb] Fb]. split; [eauto|]. intros q Hq. rewrite (Em (sells ob) (or_intror Es)) in Tk. destruct (Tk q Hq) as [[x X]|[x []]]. specialize (Fb _ X). cbn [fst] in *. lia.
    - destruct (last_tick_in _ _ Es) as [qs Ps]. pose proof (last_tick_end _ _ _ SS Es) as Fs. split; [eauto|]. intros q Hq. rewrite (Em (buys ob) (or_introl Eb)) in Tk. destruct (Tk q Hq) as [[x []]|[x X]]. specialize (Fs _ X). cbn [fst] in *. lia.
    - intros q Hq. rewrite (Em (buys ob) (or_introl Eb)), (Em (sells ob) (or_intror Es)) in Tk. destruct (Tk q Hq) as [[x []]|[x []]]. }
  assert (Lo : exists r, book_lowest_price ob = r /\ match r with Some p => (exists q, in_book h q /\ o_price (get h q) = p) /\ (forall q, in_book h q -> p <= o_price (get h q)) | None => forall q, ~ in_book h q end).
  { eexists. split; [reflexivity|]. unfold book_lowest_price, buys_lowest, sells_lowest. destruct (last_tick_price (buys ob)) as [b|] eqn:Eb; destruct (first_price (sells ob)) as [s|] eqn:Es.
    - destruct (last_tick_in _ _ Eb) as [ps Pb]. pose proof (last_tick_end _ _ _ SB Eb) as Fb. destruct (first_tick _ _ _ SS Es) as [[qs Ps] Fs]. split.
      + destruct (Z.min_spec b s) as [[_ ->]|[_ ->]]; eauto.
      + intros q Hq. destruct (Tk q Hq) as [[x X]|[x X]]; [specialize (Fb _ X)|specialize (Fs _ X)]; cbn [fst] in *; lia.
    - destruct (last_tick_in _ _ Eb) as [ps Pb]. pose proof (last_tick_end _ _ _ SB Eb) as Fb. split; [eauto|]. intros q Hq. rewrite (Em (sells ob) (or_introl Es)) in Tk. destruct (Tk q Hq) as [[x X]|[x []]]. specialize (Fb _ X). cbn [fst] in *. lia.
    - destruct (first_tick _ _ _ SS Es) as [[qs Ps] Fs]. split; [eauto|]. intros q Hq. rewrite (Em (buys ob) (or_intror Eb)) in Tk. destruct (Tk q Hq) as [[x []]|[x X]]. specialize (Fs _ X). cbn [fst] in *. lia.
    - intros q Hq. rewrite (Em (buys ob) (or_intror Eb)), (Em (sells ob) (or_introl Es)) in Tk. destruct (Tk q Hq) as [[x []]|[x []]]. }
  destruct Hi as (r & -> & Hr), Lo as (l & -> & Hl). split; intros p; split.
  - intros ->. exact Hr.
  - intros [(q & Q & <-) M]. destruct r as [x|]; [|destruct (Hr q Q)]. destruct Hr as [(y & Y & <-) N]. f_equal. apply Z.le_antisymm; auto.
  - intros ->. exact Hl.
  - intros [(q & Q & <-) M]. destruct l as [x|]; [|destruct (Hl q Q)]. destruct Hl as [(y & Y & <-) N]. f_equal. apply Z.le_antisymm; auto.
Qed.
Print Assumptions C10_price_range.

Example C10_price_range_example : let h := [mk Buy 900000000000000000 1000 1 1; mk Sell 1100000000000000000 1000 1 2; mk Buy 2 100 1 3] in
  book_highest_price (new_order_book h) = Some 1100000000000000000 /\ book_lowest_price (new_order_book h) = Some 900000000000000000.
Proof. split; vm_compute; reflexivity. Qed.
