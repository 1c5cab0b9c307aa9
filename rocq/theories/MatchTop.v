(** Matching a freshly built order book: facts stated in the vocabulary of MatchSpec. *)
From Verif Require Import Base Dec DecProofs OrderModel MatchModel MatchSpec KeyedProofs OrderProofs MatchProofs MatchLoopProofs MatchBookProofs.
From Coq Require Import Permutation Sorted.

Lemma fresh_wf o : fresh_order o -> wf_order o.
Proof. unfold fresh_order, wf_order. intros (A & B & C & D & E & F & G). destruct (o_dir o); lia. Qed.

Lemma wf_heap_Forall h : Forall wf_order h <-> wf_heap h.
Proof.
  unfold wf_heap. rewrite Forall_forall. split.
  - intros H i Hi. apply H. unfold get. apply nth_In. assumption.
  - intros H o Ho. destruct (In_nth h o dummy_order Ho) as (i & Hi & <-). apply H. assumption.
Qed.

Lemma listed_dir h d p : listed h d p = true -> o_dir (get h p) = d.
Proof. unfold listed. intros H. apply andb_true_iff in H. destruct H as [_ H]. destruct d, (o_dir (get h p)); congruence. Qed.

Lemma keyed_side_wf h inc d ps ts : wf_heap h -> NoDup ps -> (forall p, In p ps -> (p < length h)%nat /\ o_dir (get h p) = d) ->
  keyed (tick_order inc) (fun p => o_price (get h p)) ps ts -> side_wf h inc d ts.
Proof.
  intros Hwf Hnd Hps HK.
  pose proof (keyed_perm _ (tick_order_irrefl inc) _ _ _ HK) as Hp.
  assert (Hmem : forall t p, In t ts -> In p (snd t) -> In p ps /\ o_price (get h p) = fst t).
  { intros [x ms] p Ht Hin. apply (keyed_members _ _ _ _ _ _ HK Ht) in Hin. assumption. }
  constructor.
  - apply (keyed_sorted _ _ _ _ HK).
  - eapply Permutation_NoDup; [apply Permutation_sym; exact Hp|assumption].
  - intros [x ms] Ht. destruct (keyed_members _ _ _ _ _ _ HK Ht) as (_ & Hne & Hm).
    destruct ms as [|p ms]; [congruence|]. destruct (proj1 (Hm p) (or_introl eq_refl)) as [Hin <-].
    destruct (Hwf p) as (H & _); [apply Hps; assumption|assumption].
  - intros t p Ht Hin. destruct (Hmem t p Ht Hin) as [H1 H2]. destruct (Hps p H1). auto.
Qed.

Lemma book_side_wf h : wf_heap h ->
  side_wf h false Buy (buys (new_order_book h)) /\ side_wf h true Sell (sells (new_order_book h)).
Proof.
  intros Hwf. destruct (new_order_book_ok h) as [HB HS].
  split; [eapply (keyed_side_wf h false Buy)|eapply (keyed_side_wf h true Sell)]; try eassumption.
  - apply NoDup_filter, seq_NoDup.
  - intros p Hp. apply filter_In in Hp. destruct Hp as [Hp Hl]. apply in_seq in Hp. split; [lia|apply listed_dir; assumption].
  - apply NoDup_filter, seq_NoDup.
  - intros p Hp. apply filter_In in Hp. destruct Hp as [Hp Hl]. apply in_seq in Hp. split; [lia|apply listed_dir; assumption].
Qed.

(** ** totals *)
Lemma sum_upd (g : order -> Z) h i o : (i < length h)%nat ->
  sumZ (map g (upd h i o)) = sumZ (map g h) - g (get h i) + g o.
Proof.
  revert i. induction h as [|x h IH]; intros i Hi; [cbn in Hi; lia|]. destruct i as [|i]; cbn [upd map]; rewrite !sumZ_cons.
  - unfold get. cbn [nth]. lia.
  - rewrite IH by (cbn in Hi; lia). unfold get. cbn [nth]. lia.
Qed.

Lemma combine_diff (g : order -> Z) (d : dir) : forall h h', length h' = length h ->
  (forall i, o_dir (get h' i) = o_dir (get h i)) ->
  sumZ (map (fun oo => match d, o_dir (fst oo) with Buy, Buy => g (snd oo) - g (fst oo) | Sell, Sell => g (snd oo) - g (fst oo) | _, _ => 0 end) (combine h h')) =
  sumZ (map (fun o => match d, o_dir o with Buy, Buy => g o | Sell, Sell => g o | _, _ => 0 end) h') -
  sumZ (map (fun o => match d, o_dir o with Buy, Buy => g o | Sell, Sell => g o | _, _ => 0 end) h).
Proof.
  induction h as [|o h IH]; intros [|o' h'] Hl Hd; try discriminate; [reflexivity|].
  cbn [combine map]. rewrite !sumZ_cons. rewrite IH.
  - specialize (Hd O). unfold get in Hd. cbn in Hd. cbn [fst snd]. rewrite Hd. destruct d, (o_dir o); lia.
  - cbn in Hl. lia.
  - intros i. apply (Hd (S i)).
Qed.

Definition side_tot (g : order -> Z) (d : dir) (h : heap) : Z :=
  sumZ (map (fun o => match d, o_dir o with Buy, Buy => g o | Sell, Sell => g o | _, _ => 0 end) h).

Lemma trace_side_tot h tr h' : trace h tr h' ->
  side_tot o_recv Buy h' = side_tot o_recv Buy h + side_amt h Buy tr /\
  side_tot o_paid Sell h' = side_tot o_paid Sell h + side_amt h Sell tr /\
  side_tot o_paid Buy h' - side_tot o_paid Buy h - (side_tot o_recv Sell h' - side_tot o_recv Sell h) = trace_diff h tr.
Proof.
  induction 1 as [h|h i a p rest h' Hi Hp Ha Hacc Htr IH].
  - unfold side_amt, trace_diff. cbn. lia.
  - pose proof (upd_static h i a p Hi) as St.
    assert (Hpa : 0 <= p * a) by nia.
    rewrite !(side_amt_static h (upd h i (filled (get h i) a p)) _ rest St) in IH.
    rewrite (trace_diff_static h (upd h i (filled (get h i) a p)) rest St) in IH.
    unfold side_tot in IH |- *. rewrite !sum_upd in IH by assumption.
    unfold side_amt, trace_diff in *. cbn [map f_ptr f_amt f_price fst snd]. rewrite !sumZ_cons.
    cbn [filled o_dir o_recv o_paid] in IH. unfold fill_diff in *.
    assert (fill_recv (get h i) a p = match o_dir (get h i) with Buy => a | Sell => floor_value p a end) as Er by (apply fill_recv_val; exact Hpa).
    assert (fill_paid (get h i) a p = match o_dir (get h i) with Buy => ceil_value p a | Sell => a end) as Ep by (apply fill_paid_val; exact Hpa).
    destruct (o_dir (get h i)); lia.
Qed.

Lemma trace_totals h tr h' : trace h tr h' ->
  buys_received h h' = side_amt h Buy tr /\ sells_paid h h' = side_amt h Sell tr /\
  buys_paid h h' - sells_received h h' = trace_diff h tr.
Proof.
  intros T. pose proof (trace_side_tot _ _ _ T) as (A & B & C). destruct (trace_static _ _ _ T) as [L S].
  assert (Hd : forall i, o_dir (get h' i) = o_dir (get h i)) by (intros i; apply S).
  pose proof (combine_diff o_recv Buy h h' L Hd) as E1. pose proof (combine_diff o_paid Sell h h' L Hd) as E2.
  pose proof (combine_diff o_paid Buy h h' L Hd) as E3. pose proof (combine_diff o_recv Sell h h' L Hd) as E4.
  unfold side_tot in *. unfold buys_received, sells_paid, buys_paid, sells_received.
  cbv iota in E1, E2, E3, E4, A, B, C. rewrite E1, E2, E3, E4. lia.
Qed.

(** ** independence of the map iteration order *)
Section Iter.
  Variable iter : list (nat * Z) -> list (nat * Z).
  Hypothesis Hiter : is_perm_iter iter.
  Let idl := fun l : list (nat * Z) => l.

  Lemma distribute_to_orders_iter h ps amt price : NoDup ps ->
    distribute_to_orders iter h ps amt price = distribute_to_orders idl h ps amt price.
  Proof. intros. apply dist_orders_iter; assumption. Qed.

  Lemma dist_groups_iter price : forall gs h amt, NoDup (flat_map snd gs) ->
    dist_groups iter h gs amt price = dist_groups idl h gs amt price.
  Proof.
    induction gs as [|[b ps] gs IH]; intros h amt Hnd; [reflexivity|]. cbn [dist_groups flat_map snd] in *.
    destruct (NoDup_app_inv _ _ Hnd) as (N1 & N2 & _).
    destruct (_ =? 0); [apply IH; assumption|]. destruct (_ <=? amt).
    - destruct (fulfill_orders h ps price) as [[h1 d1]|]; [|reflexivity]. destruct (_ =? 0); [reflexivity|].
      rewrite IH by assumption. reflexivity.
    - apply distribute_to_orders_iter. eapply Permutation_NoDup; [apply Permutation_sym, sort_orders_perm|assumption].
  Qed.

  Lemma distribute_to_tick_iter h t amt price : NoDup (snd t) ->
    distribute_to_tick iter h t amt price = distribute_to_tick idl h t amt price.
  Proof.
    intros Hnd. apply dist_groups_iter.
    pose proof (keyed_perm batch_before batch_before_irrefl _ _ _ (group_by_batch_keyed h (snd t))) as Hp.
    eapply Permutation_NoDup; [apply Permutation_sym; exact Hp|assumption].
  Qed.

  Lemma distribute_to_ticks_iter price : forall ts h amt, NoDup (flat_map snd ts) ->
    distribute_to_ticks iter h ts amt price = distribute_to_ticks idl h ts amt price.
  Proof.
    induction ts as [|t ts IH]; intros h amt Hnd; [reflexivity|]. cbn [distribute_to_ticks flat_map] in *.
    destruct (NoDup_app_inv _ _ Hnd) as (N1 & N2 & _). destruct (_ <=? amt).
    - destruct (fulfill_orders h (snd t) price) as [[h1 d1]|]; [|reflexivity]. destruct (_ =? 0); [reflexivity|].
      rewrite IH by assumption. reflexivity.
    - apply distribute_to_tick_iter. assumption.
  Qed.

  Lemma match_single_iter h ob mp : NoDup (flat_map snd (buys ob)) -> NoDup (flat_map snd (sells ob)) ->
    match_single iter h ob mp = match_single idl h ob mp.
  Proof.
    intros NB NS. unfold match_single. destruct (find_matchable_single h ob mp) as [[m|]|]; try reflexivity.
    rewrite distribute_to_ticks_iter by assumption.
    destruct (distribute_to_ticks idl h (buys ob) m mp) as [[h1 d1]|]; [|reflexivity].
    rewrite distribute_to_ticks_iter by assumption. reflexivity.
  Qed.

  Lemma match_loop_iter d : forall fuel h bs ss mp qd m, NoDup (flat_map snd bs) -> NoDup (flat_map snd ss) ->
    match_loop iter fuel d h bs ss mp qd m = match_loop idl fuel d h bs ss mp qd m.
  Proof.
    induction fuel as [|fuel IH]; intros h bs ss mp qd m NB NS; [reflexivity|]. cbn [match_loop].
    destruct bs as [|bt br]; [reflexivity|]. destruct ss as [|st sr]; [reflexivity|].
    destruct (fst st <=? fst bt); [|reflexivity].
    pose proof NB as NB'. pose proof NS as NS'. cbn [flat_map] in NB', NS'.
    destruct (NoDup_app_inv _ _ NB') as (B1 & B2 & _). destruct (NoDup_app_inv _ _ NS') as (S1 & S2 & _).
    set (p := match d with PriceIncreasing => _ | _ => _ end).
    destruct (_ <=? 0); [apply IH; assumption|]. destruct (_ <=? 0); [apply IH; assumption|].
    rewrite distribute_to_tick_iter by assumption.
    destruct (distribute_to_tick idl h bt _ p) as [[h1 d1]|]; [|reflexivity].
    rewrite distribute_to_tick_iter by assumption.
    destruct (distribute_to_tick idl h1 st _ p) as [[h2 d2]|]; [|reflexivity].
    apply IH; [destruct (_ <=? _)|destruct (_ <=? _)]; assumption.
  Qed.

  Lemma match_book_iter h ob last : NoDup (flat_map snd (buys ob)) -> NoDup (flat_map snd (sells ob)) ->
    match_book iter h ob last = match_book idl h ob last.
  Proof.
    intros NB NS. unfold match_book. rewrite match_single_iter by assumption.
    destruct (buys ob) eqn:Eb; [reflexivity|]. destruct (sells ob) eqn:Es; [reflexivity|]. rewrite <- Eb, <- Es in *.
    destruct (match_single idl h ob last) as [r|]; [|reflexivity].
    destruct (match r with Some (h1, q) => (h1, q, true) | None => (h, 0, false) end) as [[h1 qd] m].
    destruct (price_direction h ob last); [reflexivity| |]; apply match_loop_iter; assumption.
  Qed.
End Iter.

(** ** the top level statement *)
Lemma trace_length h tr h' : trace h tr h' -> length h' = length h.
Proof. intros T. apply (trace_static _ _ _ T). Qed.

Theorem match_orders_ok iter h last : is_perm_iter iter -> Forall wf_order h -> 0 < last ->
  exists h' mp qd m tr, match_book iter h (new_order_book h) last = Some (h', mp, qd, m) /\
    mres h (buys (new_order_book h)) (sells (new_order_book h)) h' qd tr /\
    (m = true <-> tr <> []) /\ (tr = [] -> mp = last /\ h' = h) /\
    (tr <> [] -> exists f, In f tr /\ f_price f = mp) /\
    (forall f, In f tr -> f_price f = last \/ exists t, In t (buys (new_order_book h) ++ sells (new_order_book h)) /\ f_price f = fst t).
Proof.
  intros Hi Hwf Hl. apply wf_heap_Forall in Hwf. destruct (book_side_wf h Hwf) as [HB HS].
  apply match_book_ok; assumption.
Qed.

(** ** the two entry points used by the keeper (keeper/swap.go:348-384): Match around a last price
    and MatchAtSinglePrice for a pair without a last price; both on a freshly built book. *)
Inductive match_outcome (iter : list (nat * Z) -> list (nat * Z)) (h h' : list order) (mp : dec) (qd : Z) : Prop :=
| MO_last last : 0 < last -> match_book iter h (new_order_book h) last = Some (h', mp, qd, true) -> match_outcome iter h h' mp qd
| MO_single : 0 < mp -> match_single iter h (new_order_book h) mp = Some (Some (h', qd)) -> match_outcome iter h h' mp qd.

Lemma match_outcome_ok iter h h' mp qd : is_perm_iter iter -> Forall wf_order h -> match_outcome iter h h' mp qd ->
  exists tr, mres h (buys (new_order_book h)) (sells (new_order_book h)) h' qd tr /\ tr <> [] /\
    exists f, In f tr /\ f_price f = mp.
Proof.
  intros Hi Hwf [last Hl E|Hl E].
  - destruct (match_orders_ok iter h last Hi Hwf Hl) as (h2 & mp2 & qd2 & m & tr & E2 & M & Hm & _ & Hf & _).
    rewrite E in E2. injection E2 as <- <- <- <-. exists tr. assert (tr <> []) by (apply Hm; reflexivity). auto.
  - apply wf_heap_Forall in Hwf. destruct (book_side_wf h Hwf) as [HB HS].
    destruct (match_single_ok iter Hi h (new_order_book h) mp Hwf Hl HB HS) as (r & E2 & Hr).
    rewrite E in E2. injection E2 as <-. destruct Hr as (tr & M & Hne & Hp & _).
    exists tr. split; [assumption|]. split; [assumption|]. destruct tr as [|f tr]; [congruence|]. exists f.
    split; [left; reflexivity|apply Hp; left; reflexivity].
Qed.

Lemma match_iter_indep iter h : is_perm_iter iter -> Forall wf_order h ->
  (forall last, match_book iter h (new_order_book h) last = match_book (fun l => l) h (new_order_book h) last) /\
  (forall p, match_single iter h (new_order_book h) p = match_single (fun l => l) h (new_order_book h) p).
Proof.
  intros Hi Hwf. apply wf_heap_Forall in Hwf. destruct (book_side_wf h Hwf) as [[_ HB _ _] [_ HS _ _]].
  split; intros x; [apply match_book_iter|apply match_single_iter]; assumption.
Qed.

Lemma match_total iter h : is_perm_iter iter -> Forall wf_order h ->
  (forall last, 0 < last -> exists r, match_book iter h (new_order_book h) last = Some r) /\
  (forall p, 0 < p -> exists r, match_single iter h (new_order_book h) p = Some r).
Proof.
  intros Hi Hwf. split; intros x Hx.
  - destruct (match_orders_ok iter h x Hi Hwf Hx) as (h2 & mp2 & qd2 & m & tr & E2 & _). eauto.
  - apply wf_heap_Forall in Hwf. destruct (book_side_wf h Hwf) as [HB HS].
    destruct (match_single_ok iter Hi h (new_order_book h) x Hwf Hx HB HS) as (r & E2 & _). eauto.
Qed.

(** what is bought and sold *)
Lemma match_outcome_totals iter h h' mp qd : is_perm_iter iter -> Forall wf_order h -> match_outcome iter h h' mp qd ->
  qd = buys_paid h h' - sells_received h h' /\ 0 <= qd /\ sells_paid h h' <= buys_received h h' /\
  ((forall o, In o h -> o_dir o = Sell -> P18 <= o_price o) -> sells_paid h h' = buys_received h h').
Proof.
  intros Hi Hwf Ho. destruct (match_outcome_ok _ _ _ _ _ Hi Hwf Ho) as (tr & [MT MD MI MN ML ME _ _] & _).
  destruct (trace_totals _ _ _ MT) as (A & B & C). split; [lia|]. split; [assumption|]. split; [lia|].
  intros Hp. rewrite A, B. apply ME. intros [x ms] Ht. destruct (new_order_book_ok h) as [_ KS].
  destruct (keyed_members _ _ _ _ _ _ KS Ht) as (_ & Hne & Hm). destruct ms as [|q ms]; [congruence|].
  destruct (proj1 (Hm q) (or_introl eq_refl)) as [Hq <-]. apply filter_In in Hq. destruct Hq as [Hq Hl]. apply in_seq in Hq.
  cbn [fst]. apply Hp; [apply nth_In; lia|apply listed_dir; assumption].
Qed.

(** ** the contents of a book *)
Definition on_side (h : heap) (d : dir) (p : nat) : Prop :=
  (p < length h)%nat /\ o_dir (get h p) = d /\ 0 < matchable_amount (get h p) (o_price (get h p)).

Definition side_contents (h : heap) (d : dir) (before : Z -> Z -> Prop) (ts : list tick) : Prop :=
  StronglySorted before (map fst ts) /\ NoDup (flat_map snd ts) /\
  (forall p, In p (flat_map snd ts) <-> on_side h d p) /\
  (forall x ps, In (x, ps) ts -> ps <> [] /\ StronglySorted lt ps /\ forall p, In p ps <-> on_side h d p /\ o_price (get h p) = x).

Lemma seq_sorted n : forall s, StronglySorted lt (seq s n).
Proof.
  induction n as [|n IH]; intros s; [constructor|]. cbn. constructor; [apply IH|].
  apply Forall_forall. intros x Hx. apply in_seq in Hx. lia.
Qed.
Lemma filter_sorted {A} (R : A -> A -> Prop) f l : StronglySorted R l -> StronglySorted R (filter f l).
Proof.
  induction 1 as [|x l Hs IH HF]; [constructor|]. cbn. destruct (f x); [|assumption]. constructor; [assumption|].
  rewrite Forall_forall in HF |- *. intros y Hy. apply filter_In in Hy. apply HF. apply Hy.
Qed.

Lemma on_side_listed h d p : In p (filter (listed h d) (seq 0 (length h))) <-> on_side h d p.
Proof.
  rewrite filter_In, in_seq. unfold on_side, listed. rewrite andb_true_iff, Z.ltb_lt. split.
  - intros (A & B & C). split; [lia|]. split; [|assumption]. destruct d, (o_dir (get h p)); congruence.
  - intros (A & B & C). rewrite B. split; [lia|]. split; [assumption|]. destruct d; reflexivity.
Qed.

Lemma keyed_contents h d inc ts :
  keyed (tick_order inc) (fun p => o_price (get h p)) (filter (listed h d) (seq 0 (length h))) ts ->
  side_contents h d (tick_order inc) ts.
Proof.
  intros HK. pose proof (keyed_perm _ (tick_order_irrefl inc) _ _ _ HK) as Hp. split; [|split; [|split]].
  - apply (keyed_sorted _ _ _ _ HK).
  - eapply Permutation_NoDup; [apply Permutation_sym; exact Hp|]. apply NoDup_filter, seq_NoDup.
  - intros p. rewrite <- on_side_listed. split; apply Permutation_in; [assumption|apply Permutation_sym; assumption].
  - intros x ps Ht. destruct (keyed_members _ _ _ _ _ _ HK Ht) as (_ & Hne & Hm). split; [assumption|]. split.
    + destruct HK as (ks & _ & _ & EL). rewrite EL in Ht. apply in_map_iff in Ht. destruct Ht as (k & E & _). unfold bucket in E. injection E as <- <-.
      apply filter_sorted, filter_sorted, seq_sorted.
    + intros p. rewrite Hm, on_side_listed. reflexivity.
Qed.

Lemma new_book_contents h :
  side_contents h Buy (fun a b => b < a) (buys (new_order_book h)) /\
  side_contents h Sell (fun a b => a < b) (sells (new_order_book h)).
Proof. destruct (new_order_book_ok h) as [A B]. exact (conj (keyed_contents h Buy false _ A) (keyed_contents h Sell true _ B)). Qed.

(** ** order amounts *)
Lemma offer_coin_least d price amt : 0 <= price -> 0 <= amt ->
  match d with
  | Buy => price * amt <= offer_coin_amount Buy price amt * P18 /\
           forall c, price * amt <= c * P18 -> offer_coin_amount Buy price amt <= c
  | Sell => offer_coin_amount Sell price amt = amt
  end.
Proof.
  intros Hp Ha. destruct d; [|reflexivity]. unfold offer_coin_amount.
  destruct (ceil_bounds (dmul_int price amt) ltac:(unfold dmul_int; nia)) as (A & B & C). unfold dmul_int in *.
  split; [lia|]. intros c Hc. nia.
Qed.

(** the matchable amount is the greatest amount within the open amount that the remaining offer
    coin can pay for, or zero when even that is worth less than one quote coin *)
Lemma matchable_greatest o p : wf_order o -> 0 < p ->
  let m := matchable_amount o p in
  let affordable a := 0 <= a <= o_open o /\ (o_dir o = Buy -> ceil_value p a <= o_offer o - o_paid o) in
  affordable m /\
  (forall a, affordable a -> 0 < floor_value p a -> a <= m) /\
  (m <> 0 -> 0 < floor_value p m).
Proof.
  intros Hwf Hp m aff. destruct (matchable_spec o p Hwf Hp) as (A & B & C). fold m in A, B, C. pose proof P18_pos as H18.
  split; [|split]; [| |assumption].
  - split; [assumption|]. intros D. specialize (B D). pose proof (ceil_value_bounds p m). nia.
  - intros a [Ha1 Ha2] Hv. destruct Hwf as (Wp & Wo & Wpd & _).
    assert (Hraw : exists r, a <= r /\ 0 <= r /\ m = if floor_value p r =? 0 then 0 else r).
    { unfold m, matchable_amount. destruct (o_dir o) eqn:D.
      - rewrite quo_trunc_int by lia. set (r := Z.min (o_open o) _).
        exists r. assert (0 <= (o_offer o - o_paid o) * P18 / p) by (apply Z.div_pos; nia).
        assert (0 <= r) by lia. split; [|split; [assumption|rewrite floor_value_dec by nia; reflexivity]].
        unfold r. apply Z.min_glb; [lia|]. apply Z.div_le_lower_bound; [assumption|]. specialize (Ha2 eq_refl).
        pose proof (ceil_value_bounds p a). nia.
      - exists (o_open o). split; [lia|]. split; [lia|]. rewrite floor_value_dec by nia. reflexivity. }
    destruct Hraw as (r & R1 & R2 & ->). destruct (Z.eqb_spec (floor_value p r) 0) as [E|E]; [|lia].
    exfalso. pose proof (floor_value_bounds p r). pose proof (floor_value_bounds p a). nia.
Qed.

(** priority, in terms of list positions of the submitted orders *)
Lemma match_outcome_priority iter h h' mp qd : is_perm_iter iter -> Forall wf_order h -> match_outcome iter h h' mp qd ->
  forall i j, on_side h (o_dir (get h j)) i -> (j < length h)%nat -> better h (o_dir (get h j)) i j ->
  get h' j <> get h j -> zero_at h' i.
Proof.
  intros Hi Hwf Ho i j Hsi Hj Hb Hc. destruct (match_outcome_ok _ _ _ _ _ Hi Hwf Ho) as (tr & [MT MD MI MN ML ME MB MS] & _).
  destruct (new_book_contents h) as [(_ & _ & CB & _) (_ & _ & CS & _)].
  assert (Hin : In j (map f_ptr tr)).
  { destruct (in_dec Nat.eq_dec j (map f_ptr tr)); [assumption|]. exfalso. apply Hc. eapply trace_other; eassumption. }
  apply in_map_iff in Hin. destruct Hin as (f & Ef & Hf). apply MI in Hf. rewrite Ef in Hf. apply in_app_iff in Hf.
  destruct (o_dir (get h j)) eqn:D.
  - assert (Hjb : In j (flat_map snd (buys (new_order_book h)))).
    { destruct Hf as [Hf|Hf]; [assumption|]. apply CS in Hf. destruct Hf as (_ & E & _). congruence. }
    apply (MB i j); auto. apply CB. assumption.
  - assert (Hjs : In j (flat_map snd (sells (new_order_book h)))).
    { destruct Hf as [Hf|Hf]; [|assumption]. apply CB in Hf. destruct Hf as (_ & E & _). congruence. }
    apply (MS i j); auto. apply CS. assumption.
Qed.

Lemma match_outcome_orders iter h h' mp qd : is_perm_iter iter -> Forall wf_order h -> match_outcome iter h h' mp qd ->
  length h' = length h /\ Forall wf_order h' /\
  forall i, (i < length h)%nat -> exists fs, filled_by (get h i) fs (get h' i).
Proof.
  intros Hi Hwf Ho. destruct (match_outcome_ok _ _ _ _ _ Hi Hwf Ho) as (tr & [MT _ _ _ _ _ _ _] & _).
  split; [eapply trace_length; eassumption|]. split.
  - apply wf_heap_Forall. eapply trace_wf; [eassumption|]. apply wf_heap_Forall. assumption.
  - intros i Hlt. exists (fills_of i tr). apply trace_filled_by. assumption.
Qed.
