(** The direction of the price search and the prices it trades at. *)
From Verif Require Import Base Dec DecProofs OrderModel MatchModel MatchSpec KeyedProofs OrderProofs MatchProofs MatchLoopProofs MatchBookProofs MatchTop SingleProofs ViewProofs.
From Coq Require Import Permutation Sorted.

(** what the chosen orders on the book could trade at price [p] *)
Definition volume (keep : order -> bool) (p : dec) (h : list order) : Z :=
  sumZ (map (fun o => if keep o && (0 <? matchable_amount o (o_price o)) then matchable_amount o p else 0) h).
Definition on_dir (d : dir) (o : order) : bool := match d, o_dir o with Buy, Buy | Sell, Sell => true | _, _ => false end.

Lemma filter_volume h d inc (g : Z -> bool) keep p ts :
  keyed (tick_order inc) (fun p => o_price (get h p)) (filter (listed h d) (seq 0 (length h))) ts ->
  (forall o, keep o = on_dir d o && g (o_price o)) ->
  side_total h p (filter (fun t : tick => g (fst t)) ts) = volume keep p h.
Proof.
  intros HK Hk. rewrite side_total_sum.
  rewrite (total_matchable_perm h _ _ p (flat_filter_perm h d inc g ts HK)).
  rewrite total_matchable_sum. unfold volume.
  assert (G : forall l k, (forall i, (i < length l)%nat -> get h (k + i) = nth i l dummy_order) ->
    sumZ (map (fun q => matchable_amount (get h q) p) (filter (fun q => listed h d q && g (o_price (get h q))) (seq k (length l)))) =
    sumZ (map (fun o => if keep o && (0 <? matchable_amount o (o_price o)) then matchable_amount o p else 0) l)).
  { induction l as [|o l IH]; intros k H; [reflexivity|]. cbn [length seq filter map]. rewrite sumZ_cons.
    rewrite <- (IH (S k)).
    - pose proof (H O ltac:(cbn; lia)) as E. rewrite Nat.add_0_r in E. cbn [nth] in E.
      assert (Ec : listed h d k && g (o_price (get h k)) = keep o && (0 <? matchable_amount o (o_price o))).
      { rewrite Hk. unfold listed, on_dir. rewrite E. destruct d, (o_dir o), (g (o_price o)), (0 <? matchable_amount o (o_price o)); reflexivity. }
      rewrite Ec. destruct (keep o && _); cbn [map]; rewrite ?sumZ_cons, ?E; lia.
    - intros i Hi. specialize (H (S i) ltac:(cbn; lia)). cbn [nth] in H. rewrite <- H. f_equal. lia. }
  apply G. intros i Hi. reflexivity.
Qed.

Lemma filter_none {A} (f : A -> bool) l : (forall x, In x l -> f x = false) -> filter f l = [].
Proof.
  induction l as [|x l IH]; intros H; [reflexivity|]. cbn. rewrite (H x) by (left; reflexivity). apply IH. intros y Hy. apply H. right. assumption.
Qed.

Lemma beyond_at_spec h (inc : bool) last : forall ts over, StronglySorted (tick_order inc) (map fst ts) ->
  beyond_at h inc last ts over =
    (over + side_total h last (filter (fun t : tick => if inc then fst t <? last else last <? fst t) ts),
     side_total h last (filter (fun t : tick => fst t =? last) ts)).
Proof.
  assert (S0 : side_total h last [] = 0) by reflexivity.
  induction ts as [|[x ps] ts IH]; intros over Hs; [cbn [beyond_at filter]; rewrite S0; f_equal; lia|].
  cbn [map fst] in Hs. apply StronglySorted_inv in Hs. destruct Hs as [Hs HF]. rewrite Forall_forall in HF.
  assert (HR : forall t, In t ts -> if inc then x < fst t else fst t < x).
  { intros t Ht. specialize (HF _ (in_map fst ts t Ht)). destruct inc; exact HF. }
  cbn [beyond_at]. destruct (if inc then last <? x else x <? last) eqn:E1.
  - rewrite (filter_none _ ((x, ps) :: ts)), (filter_none (fun t : tick => fst t =? last) ((x, ps) :: ts)).
    + rewrite S0. f_equal. lia.
    + intros t [<-|Ht]; [cbn [fst]|specialize (HR t Ht)]; destruct inc; apply Z.ltb_lt in E1; apply Z.eqb_neq; lia.
    + intros t [<-|Ht]; [cbn [fst]|specialize (HR t Ht)]; destruct inc; apply Z.ltb_lt in E1; apply Z.ltb_ge; lia.
  - destruct (Z.eqb_spec x last) as [->|Hne].
    + cbn [filter fst]. rewrite Z.eqb_refl.
      rewrite (filter_none _ ts), (filter_none (fun t : tick => fst t =? last) ts).
      * replace (if inc then last <? last else last <? last) with false by (destruct inc; rewrite Z.ltb_irrefl; reflexivity).
        rewrite side_total_cons, S0. cbn [snd]. f_equal; lia.
      * intros t Ht. specialize (HR t Ht). destruct inc; apply Z.eqb_neq; lia.
      * intros t Ht. specialize (HR t Ht). destruct inc; apply Z.ltb_ge; lia.
    + rewrite IH by assumption. cbn [filter fst]. rewrite (proj2 (Z.eqb_neq x last) Hne).
      replace (if inc then x <? last else last <? x) with true.
      * rewrite side_total_cons. cbn [snd]. f_equal. lia.
      * destruct inc; apply Z.ltb_ge in E1; symmetry; apply Z.ltb_lt; lia.
Qed.

Lemma volume_add k1 k2 k p h : (forall o, k o = k1 o || k2 o) -> (forall o, k1 o && k2 o = false) ->
  volume k p h = volume k1 p h + volume k2 p h.
Proof.
  intros H1 H2. unfold volume. rewrite <- sumZ_map_add. apply sumZ_map_ext. intros o _. rewrite H1. specialize (H2 o).
  destruct (k1 o), (k2 o), (0 <? matchable_amount o (o_price o)); cbn [andb orb] in *; try discriminate; lia.
Qed.
Lemma volume_nonneg k p h : Forall wf_order h -> 0 < p -> 0 <= volume k p h.
Proof.
  intros Hw Hp. apply sumZ_map_nonneg. intros o Ho. rewrite Forall_forall in Hw. pose proof (matchable_le_open o p (Hw o Ho) Hp).
  destruct (_ && _); lia.
Qed.

Definition buy_eq (p : dec) (o : order) : bool := is_buy (o_dir o) && (o_price o =? p).
Definition sell_eq (p : dec) (o : order) : bool := negb (is_buy (o_dir o)) && (o_price o =? p).

Lemma buy_split p o : buy_ge p o = buy_gt p o || buy_eq p o.
Proof. unfold buy_ge, buy_gt, buy_eq. destruct (is_buy _); cbn [andb]; [|reflexivity].
  destruct (Z.leb_spec p (o_price o)), (Z.ltb_spec p (o_price o)), (Z.eqb_spec (o_price o) p); cbn; (reflexivity || lia). Qed.
Lemma buy_disj p o : buy_gt p o && buy_eq p o = false.
Proof. unfold buy_gt, buy_eq. destruct (is_buy _); cbn [andb]; [|reflexivity].
  destruct (Z.ltb_spec p (o_price o)), (Z.eqb_spec (o_price o) p); cbn; (reflexivity || lia). Qed.
Lemma sell_split p o : sell_le p o = sell_lt p o || sell_eq p o.
Proof. unfold sell_le, sell_lt, sell_eq. destruct (is_buy _); cbn [andb negb]; [reflexivity|].
  destruct (Z.leb_spec (o_price o) p), (Z.ltb_spec (o_price o) p), (Z.eqb_spec (o_price o) p); cbn; (reflexivity || lia). Qed.
Lemma sell_disj p o : sell_lt p o && sell_eq p o = false.
Proof. unfold sell_lt, sell_eq. destruct (is_buy _); cbn [andb negb]; [reflexivity|].
  destruct (Z.ltb_spec (o_price o) p), (Z.eqb_spec (o_price o) p); cbn; (reflexivity || lia). Qed.

Lemma direction_volumes h last :
  let up := volume (buy_gt last) last h in let dn := volume (sell_lt last) last h in
  price_direction h (new_order_book h) last =
    if volume (sell_le last) last h <? up then PriceIncreasing else if volume (buy_ge last) last h <? dn then PriceDecreasing else PriceStaying.
Proof.
  intros up dn. destruct (new_order_book_ok h) as [KB KS].
  unfold price_direction. rewrite (beyond_at_spec h false last) by exact (keyed_sorted _ _ _ _ KB).
  rewrite (beyond_at_spec h true last) by exact (keyed_sorted _ _ _ _ KS).
  rewrite (filter_volume h Buy false (fun x => last <? x) (buy_gt last) last _ KB) by (intros o; unfold buy_gt, on_dir; destruct (o_dir o); reflexivity).
  rewrite (filter_volume h Buy false (fun x => x =? last) (buy_eq last) last _ KB) by (intros o; unfold buy_eq, on_dir; destruct (o_dir o); reflexivity).
  rewrite (filter_volume h Sell true (fun x => x <? last) (sell_lt last) last _ KS) by (intros o; unfold sell_lt, on_dir; destruct (o_dir o); reflexivity).
  rewrite (filter_volume h Sell true (fun x => x =? last) (sell_eq last) last _ KS) by (intros o; unfold sell_eq, on_dir; destruct (o_dir o); reflexivity).
  fold up dn. rewrite (volume_add _ _ _ last h (sell_split last) (sell_disj last)), (volume_add _ _ _ last h (buy_split last) (buy_disj last)).
  fold up dn. rewrite !Z.add_0_l. rewrite (Z.add_comm (volume (sell_eq last) last h)), (Z.add_comm (volume (buy_eq last) last h)). reflexivity.
Qed.

Lemma direction_iff h last : Forall wf_order h -> 0 < last ->
  (price_direction h (new_order_book h) last = PriceIncreasing <-> volume (sell_le last) last h < volume (buy_gt last) last h) /\
  (price_direction h (new_order_book h) last = PriceDecreasing <-> volume (buy_ge last) last h < volume (sell_lt last) last h).
Proof.
  intros Hw Hl. rewrite direction_volumes. cbv zeta.
  rewrite (volume_add _ _ _ last h (sell_split last) (sell_disj last)), (volume_add _ _ _ last h (buy_split last) (buy_disj last)).
  pose proof (volume_nonneg (buy_gt last) last h Hw Hl). pose proof (volume_nonneg (buy_eq last) last h Hw Hl).
  pose proof (volume_nonneg (sell_lt last) last h Hw Hl). pose proof (volume_nonneg (sell_eq last) last h Hw Hl).
  destruct (Z.ltb_spec (volume (sell_lt last) last h + volume (sell_eq last) last h) (volume (buy_gt last) last h));
  [|destruct (Z.ltb_spec (volume (buy_gt last) last h + volume (buy_eq last) last h) (volume (sell_lt last) last h))];
  (split; split; intros; try discriminate; try reflexivity; try lia).
Qed.

(** ** the matched amount when the sell side is the smaller one *)
Definition worth_tick (h : heap) (mp : dec) (t : tick) : Prop :=
  0 < total_matchable h (snd t) mp -> floor_value mp (total_matchable h (snd t) mp) <> 0.

Lemma single_loop_sells h mp : 0 < mp -> forall fuel bst sst, nonneg_side h mp bst -> nonneg_side h mp sst ->
  (forall t, In t sst -> worth_tick h mp t) -> side_total h mp sst <= side_total h mp bst ->
  (length bst + length sst < fuel)%nat ->
  single_loop fuel h mp bst sst (side_total h mp bst) (side_total h mp sst) =
    Some (if 0 <? side_total h mp sst then Some (side_total h mp sst) else None).
Proof.
  intros Hmp. induction fuel as [|fuel IH]; intros bst sst Hb Hs Hw Hle Hf; [lia|]. cbn [single_loop].
  pose proof (side_total_nonneg h mp bst Hb). pose proof (side_total_nonneg h mp sst Hs).
  unfold side_step at 1. destruct bst as [|bt br].
  { change (side_total h mp []) with 0 in *. rewrite (proj2 (Z.ltb_ge 0 _)) by lia. reflexivity. }
  assert (Hbr : nonneg_side h mp br) by (intros x Hx; apply Hb; right; assumption).
  pose proof (side_total_nonneg h mp br Hbr). pose proof (Hb bt (or_introl eq_refl)) as Ha.
  rewrite (side_total_cons h mp bt br) in *. set (a := total_matchable h (snd bt) mp) in *. remember (side_total h mp br) as b eqn:Eb.
  rewrite Z.min_r by lia. replace (a + b - a) with b by lia. cbn [andb orb].
  assert (Sell : forall bst' bd B, B = side_total h mp bst' -> side_total h mp sst <= B -> nonneg_side h mp bst' ->
     (if bd : bool then S (length bst') = length (bt :: br) else length bst' = length (bt :: br)) ->
     match side_step h mp true sst (side_total h mp sst) B with
     | None => Some None
     | Some (sst', stt', m, sd) => if negb bd && negb sd then Some (Some m) else single_loop fuel h mp bst' sst' B stt'
     end = Some (if 0 <? side_total h mp sst then Some (side_total h mp sst) else None)).
  { intros bst' bd B EB HB Hnb Hlen. unfold side_step. destruct sst as [|st sr].
    { change (side_total h mp []) with 0 in *. rewrite Z.ltb_irrefl. reflexivity. }
    assert (Hsr : nonneg_side h mp sr) by (intros x Hx; apply Hs; right; assumption).
    pose proof (side_total_nonneg h mp sr Hsr). pose proof (Hs st (or_introl eq_refl)) as Hst.
    pose proof (Hw st (or_introl eq_refl)) as Hwt. unfold worth_tick in Hwt.
    rewrite (side_total_cons h mp st sr) in *. set (c := total_matchable h (snd st) mp) in *. remember (side_total h mp sr) as e eqn:Ee.
    rewrite Z.min_l by lia. replace (c + e - c) with e by lia. cbn [andb].
    replace (c + e - e) with c by lia. rewrite floor_value_dec by nia.
    destruct (Z.leb_spec (c + e) e) as [Hce|Hce].
    - cbn [orb]. destruct sr as [|st2 sr2] eqn:Esr.
      { change (e = 0) in Ee. rewrite (proj2 (Z.ltb_ge 0 _)) by lia. reflexivity. }
      rewrite <- Esr in *. rewrite andb_false_r. assert (c = 0) by lia.
      subst B. pose proof (IH bst' sr) as IHs. rewrite <- Ee in IHs. rewrite IHs; auto.
      + replace (c + e) with e by lia. reflexivity.
      + intros t Ht. apply Hw. right. assumption.
      + lia.
      + destruct bd; cbn [length] in *; lia.
    - cbn [orb]. rewrite (proj2 (Z.eqb_neq _ 0) (Hwt ltac:(lia))). cbn [negb]. rewrite andb_true_r.
      destruct bd; cbn [negb].
      + subst B. pose proof (IH bst' (st :: sr)) as IHs. rewrite (side_total_cons h mp st sr), <- Ee in IHs. fold c in IHs. rewrite IHs; auto.
        cbn [length] in *. lia.
      + rewrite (proj2 (Z.ltb_lt 0 _)) by lia. reflexivity. }
  destruct (Z.leb_spec (side_total h mp sst) b) as [Hsb|Hsb].
  - destruct br as [|bt2 br2] eqn:Ebr.
    { change (b = 0) in Eb. rewrite (proj2 (Z.ltb_ge 0 _)) by lia. reflexivity. }
    rewrite <- Ebr in *. apply (Sell br true); auto. 
  - apply (Sell (bt :: br) false); auto. rewrite side_total_cons, <- Eb. reflexivity.
Qed.

Lemma worth_tick_ok h ps mp : wf_heap h -> 0 < mp -> (forall p, In p ps -> (p < length h)%nat) ->
  0 < total_matchable h ps mp -> floor_value mp (total_matchable h ps mp) <> 0.
Proof.
  intros Hw Hmp Hl. rewrite total_matchable_sum. pose proof P18_pos as H18.
  assert (G : 0 <= sumZ (map (fun q => matchable_amount (get h q) mp) ps) /\
     (0 < sumZ (map (fun q => matchable_amount (get h q) mp) ps) -> P18 <= mp * sumZ (map (fun q => matchable_amount (get h q) mp) ps))).
  { induction ps as [|q ps IH]; [cbn; lia|]. cbn [map]. rewrite sumZ_cons.
    destruct IH as [I1 I2]; [intros p Hp; apply Hl; right; assumption|].
    destruct (matchable_spec (get h q) mp (Hw q (Hl q (or_introl eq_refl))) Hmp) as (A & _ & C).
    set (x := matchable_amount (get h q) mp) in *. set (y := sumZ _) in *. split; [lia|]. intros Hpos.
    destruct (Z.eq_dec x 0) as [->|Hx]; [rewrite Z.add_0_l in *; apply I2; assumption|].
    specialize (C Hx). pose proof (floor_value_bounds mp x). nia. }
  destruct G as [_ G]. intros Hpos. specialize (G Hpos). pose proof (floor_value_bounds mp (sumZ (map (fun q => matchable_amount (get h q) mp) ps))). nia.
Qed.

Lemma find_matchable_exact h ob mp : wf_heap h -> 0 < mp -> side_wf h false Buy (buys ob) -> side_wf h true Sell (sells ob) ->
  let b := side_total h mp (side_prefix false mp (buys ob)) in let s := side_total h mp (side_prefix true mp (sells ob)) in
  P18 <= mp \/ s <= b ->
  find_matchable_single h ob mp = Some (if 0 <? Z.min b s then Some (Z.min b s) else None).
Proof.
  intros Hwf Hmp HB HS. cbv zeta. intros Hc. unfold find_matchable_single.
  destruct (side_prefix_app false mp (buys ob)) as [brest Eb]. destruct (side_prefix_app true mp (sells ob)) as [srest Es].
  assert (HB' : side_wf h false Buy (side_prefix false mp (buys ob))) by (rewrite Eb in HB; eapply side_wf_prefix; exact HB).
  assert (HS' : side_wf h true Sell (side_prefix true mp (sells ob))) by (rewrite Es in HS; eapply side_wf_prefix; exact HS).
  pose proof (side_nonneg h false Buy _ mp Hwf Hmp HB') as NB. pose proof (side_nonneg h true Sell _ mp Hwf Hmp HS') as NS.
  pose proof (side_total_nonneg _ _ _ NB) as TB. pose proof (side_total_nonneg _ _ _ NS) as TS. clear Eb Es.
  revert HB' HS' NB NS TB TS Hc. generalize (side_prefix false mp (buys ob)) (side_prefix true mp (sells ob)).
  intros bs ss HB' HS' NB NS TB TS Hc.
  assert (S0 : side_total h mp [] = 0) by reflexivity.
  destruct bs as [|b0 bs0]; [rewrite S0, Z.min_l by lia; reflexivity|].
  destruct ss as [|s0 ss0]; [rewrite S0, Z.min_r by lia; reflexivity|].
  remember (b0 :: bs0) as bs eqn:Eb. remember (s0 :: ss0) as ss eqn:Es. clear Eb Es.
  rewrite <- (side_total_rev h mp bs), <- (side_total_rev h mp ss).
  assert (NB' : nonneg_side h mp (rev bs)) by (intros t Ht; apply NB, in_rev; assumption).
  assert (NS' : nonneg_side h mp (rev ss)) by (intros t Ht; apply NS, in_rev; assumption).
  destruct Hc as [Hc|Hc].
  - apply (single_loop_exact h mp Hc); auto. rewrite !rev_length. lia.
  - assert (side_total h mp (rev ss) <= side_total h mp (rev bs)) by (rewrite !side_total_rev; exact Hc).
    rewrite Z.min_r by assumption. apply (single_loop_sells h mp Hmp); auto.
    + intros t Ht. apply in_rev in Ht. unfold worth_tick. apply worth_tick_ok; auto. intros p Hp. apply (sw_ord _ _ _ _ HS' t p Ht Hp).
    + rewrite !rev_length. lia.
Qed.

(** ** what is not matchable at the last price is not matchable at a worse one *)
Lemma sell_zero_mono o p q : wf_order o -> o_dir o = Sell -> 0 < q <= p -> matchable_amount o p = 0 -> matchable_amount o q = 0.
Proof.
  intros (_ & Ho & _) D Hq. unfold matchable_amount. rewrite D. rewrite !floor_value_dec by nia.
  destruct (Z.eqb_spec (floor_value p (o_open o)) 0) as [E|E].
  - intros _. destruct (Z.eqb_spec (floor_value q (o_open o)) 0) as [|N]; [reflexivity|exfalso].
    pose proof (floor_value_bounds p (o_open o)). pose proof (floor_value_bounds q (o_open o)). pose proof P18_pos. nia.
  - intros ->. destruct (_ =? _); reflexivity.
Qed.
Lemma buy_zero_mono o p q : wf_order o -> o_dir o = Buy -> P18 <= p <= q -> matchable_amount o p = 0 -> matchable_amount o q = 0.
Proof.
  intros Hw D Hq E. pose proof P18_pos as H18.
  destruct (matchable_greatest o q Hw ltac:(lia)) as (A & _ & C). cbv zeta in *.
  destruct (matchable_greatest o p Hw ltac:(lia)) as (_ & B & _). cbv zeta in B. rewrite E in B.
  destruct (Z.eq_dec (matchable_amount o q) 0) as [|N]; [assumption|exfalso]. destruct A as [A1 A2].
  specialize (B (matchable_amount o q)). set (m := matchable_amount o q) in *.
  assert (m <= 0); [|lia]. apply B; [split; [assumption|]|].
  - intros _. specialize (A2 D). pose proof (ceil_value_bounds p m). pose proof (ceil_value_bounds q m). nia.
  - pose proof (floor_value_bounds p m). nia.
Qed.

(** ** the loop skips what has nothing to trade *)
Lemma loop_skip_up iter last : forall fuel h bs ss mp qd m, StronglySorted Z.lt (map fst ss) -> (length bs + length ss < fuel)%nat ->
  (forall t, In t ss -> fst t <= last -> total_matchable h (snd t) (fst t) = 0) ->
  exists fuel' b0 bs' s0 ss', match_loop iter fuel PriceIncreasing h bs ss mp qd m = match_loop iter fuel' PriceIncreasing h bs' ss' mp qd m /\
    bs = b0 ++ bs' /\ ss = s0 ++ ss' /\ (length bs' + length ss' < fuel')%nat /\ forall t, In t ss' -> last < fst t.
Proof.
  induction fuel as [|fuel IH]; intros h bs ss mp qd m Hs Hf Hz; [lia|].
  assert (Stop : match_loop iter (S fuel) PriceIncreasing h bs ss mp qd m = Some (h, mp, qd, m) ->
    exists fuel' b0 bs' s0 ss', match_loop iter (S fuel) PriceIncreasing h bs ss mp qd m = match_loop iter fuel' PriceIncreasing h bs' ss' mp qd m /\
    bs = b0 ++ bs' /\ ss = s0 ++ ss' /\ (length bs' + length ss' < fuel')%nat /\ forall t, In t ss' -> last < fst t).
  { intros E. exists 1%nat, bs, [], ss, []. rewrite E, !app_nil_r. cbn. repeat split; auto. intros t []. }
  destruct bs as [|bt br]; [apply Stop; reflexivity|]. destruct ss as [|st sr]; [apply Stop; reflexivity|].
  cbn [map] in Hs. apply StronglySorted_inv in Hs. destruct Hs as [Hs HF]. rewrite Forall_forall in HF.
  destruct (Z.ltb_spec last (fst st)) as [Hgt|Hle].
  { exists (S fuel), [], (bt :: br), [], (st :: sr). repeat split; auto. intros t [<-|Ht]; [assumption|]. specialize (HF _ (in_map fst sr t Ht)). lia. }
  cbn [match_loop] in *. destruct (fst st <=? fst bt); [|apply Stop; reflexivity]. clear Stop.
  rewrite (Hz st (or_introl eq_refl) Hle). destruct (Z.leb_spec (total_matchable h (snd bt) (fst st)) 0).
  - destruct (IH h br (st :: sr) mp qd m) as (f' & b0 & bs' & s0 & ss' & E & Eb & Es & L & G); auto.
    { cbn. constructor; [assumption|]. apply Forall_forall. assumption. }
    { cbn [length] in *. lia. }
    exists f', (bt :: b0), bs', s0, ss'. repeat split; auto. rewrite Eb. reflexivity.
  - change (0 <=? 0) with true. cbn match.
    destruct (IH h (bt :: br) sr mp qd m) as (f' & b0 & bs' & s0 & ss' & E & Eb & Es & L & G); auto.
    { cbn [length] in *. lia. }
    { intros t Ht. apply Hz. right. assumption. }
    exists f', b0, bs', (st :: s0), ss'. repeat split; auto. rewrite Es. reflexivity.
Qed.

Lemma loop_skip_down iter last : forall fuel h bs ss mp qd m, StronglySorted (fun a b => b < a) (map fst bs) -> (length bs + length ss < fuel)%nat ->
  (forall t, In t bs -> last <= fst t -> total_matchable h (snd t) (fst t) = 0) ->
  exists fuel' b0 bs' s0 ss', match_loop iter fuel PriceDecreasing h bs ss mp qd m = match_loop iter fuel' PriceDecreasing h bs' ss' mp qd m /\
    bs = b0 ++ bs' /\ ss = s0 ++ ss' /\ (length bs' + length ss' < fuel')%nat /\ forall t, In t bs' -> fst t < last.
Proof.
  induction fuel as [|fuel IH]; intros h bs ss mp qd m Hs Hf Hz; [lia|].
  assert (Stop : match_loop iter (S fuel) PriceDecreasing h bs ss mp qd m = Some (h, mp, qd, m) ->
    exists fuel' b0 bs' s0 ss', match_loop iter (S fuel) PriceDecreasing h bs ss mp qd m = match_loop iter fuel' PriceDecreasing h bs' ss' mp qd m /\
    bs = b0 ++ bs' /\ ss = s0 ++ ss' /\ (length bs' + length ss' < fuel')%nat /\ forall t, In t bs' -> fst t < last).
  { intros E. exists 1%nat, bs, [], ss, []. rewrite E, !app_nil_r. cbn. repeat split; auto. intros t []. }
  destruct bs as [|bt br]; [apply Stop; reflexivity|]. destruct ss as [|st sr]; [apply Stop; reflexivity|].
  cbn [map] in Hs. apply StronglySorted_inv in Hs. destruct Hs as [Hs HF]. rewrite Forall_forall in HF.
  destruct (Z.ltb_spec (fst bt) last) as [Hlt|Hge].
  { exists (S fuel), [], (bt :: br), [], (st :: sr). repeat split; auto. intros t [<-|Ht]; [assumption|]. specialize (HF _ (in_map fst br t Ht)). cbn in HF. lia. }
  cbn [match_loop] in *. destruct (fst st <=? fst bt); [|apply Stop; reflexivity]. clear Stop.
  rewrite (Hz bt (or_introl eq_refl) Hge). change (0 <=? 0) with true. cbn match.
  destruct (IH h br (st :: sr) mp qd m) as (f' & b0 & bs' & s0 & ss' & E & Eb & Es & L & G); auto.
  { cbn [length] in *. lia. }
  { intros t Ht. apply Hz. right. assumption. }
  exists f', (bt :: b0), bs', s0, ss'. repeat split; auto. rewrite Eb. reflexivity.
Qed.

Lemma side_wf_suffix h inc d pre rest : side_wf h inc d (pre ++ rest) -> side_wf h inc d rest.
Proof. induction pre as [|t pre IH]; intros H; [assumption|]. apply IH. eapply side_wf_tail. exact H. Qed.

Lemma in_prefix_price (inc : bool) last ts t : StronglySorted (tick_order inc) (map fst ts) -> In t ts ->
  (if inc then fst t <= last else last <= fst t) -> In t (side_prefix inc last ts).
Proof.
  intros Hs Ht Hp. rewrite sorted_prefix_filter by assumption. apply filter_In. split; [assumption|].
  destruct inc; apply Z.leb_le; assumption.
Qed.

Lemma zero_total h ps p : (forall q, In q ps -> matchable_amount (get h q) p = 0) -> total_matchable h ps p = 0.
Proof.
  intros H. rewrite total_matchable_sum. induction ps as [|q ps IH]; [reflexivity|]. cbn [map]. rewrite sumZ_cons, (H q) by (left; reflexivity).
  rewrite IH; [reflexivity|]. intros r Hr. apply H. right. assumption.
Qed.

(** ** the prices of a match around the last price *)
Lemma match_prices iter (h : heap) last h' mp qd m : is_perm_iter iter -> Forall wf_order h -> 0 < last ->
  match_book iter h (new_order_book h) last = Some (h', mp, qd, m) ->
  exists tr, trace h tr h' /\ (mp = last \/ exists f, In f tr /\ f_price f = mp) /\
    match price_direction h (new_order_book h) last with
    | PriceStaying => forall f, In f tr -> f_price f = last
    | PriceIncreasing => last <= mp /\ forall f, In f tr -> last <= f_price f <= mp
    | PriceDecreasing => P18 <= last -> mp <= last /\ forall f, In f tr -> mp <= f_price f <= last
    end.
Proof.
  intros Hi Hf Hl E. pose proof (proj1 (wf_heap_Forall h) Hf) as Hwf. destruct (new_order_book_ok h) as [KB KS].
  destruct (book_side_wf h Hwf) as [HB HS]. set (ob := new_order_book h) in *. pose proof P18_pos as H18.
  pose proof (side_volume_prefix h Buy false last _ eq_refl KB) as VB. pose proof (side_volume_prefix h Sell true last _ eq_refl KS) as VS.
  assert (VB2 : side_total h last (side_prefix false last (buys ob)) = volume (buy_ge last) last h).
  { rewrite sorted_prefix_filter by exact (keyed_sorted _ _ _ _ KB). apply (filter_volume h Buy false (fun x => last <=? x) (buy_ge last) last _ KB).
    intros o; unfold buy_ge, on_dir; destruct (o_dir o); reflexivity. }
  assert (VS2 : side_total h last (side_prefix true last (sells ob)) = volume (sell_le last) last h).
  { rewrite sorted_prefix_filter by exact (keyed_sorted _ _ _ _ KS). apply (filter_volume h Sell true (fun x => x <=? last) (sell_le last) last _ KS).
    intros o; unfold sell_le, on_dir; destruct (o_dir o); reflexivity. }
  destruct (direction_iff h last Hf Hl) as [DI DD]. fold ob in DI, DD.
  assert (HBp : forall t q, In t (buys ob) -> In q (snd t) -> (q < length h)%nat /\ o_dir (get h q) = Buy /\ o_price (get h q) = fst t) by exact (sw_ord _ _ _ _ HB).
  assert (HSp : forall t q, In t (sells ob) -> In q (snd t) -> (q < length h)%nat /\ o_dir (get h q) = Sell /\ o_price (get h q) = fst t) by exact (sw_ord _ _ _ _ HS).
  destruct (match_single_ok iter Hi h ob last Hwf Hl HB HS) as (r & Er & Hr). unfold match_book in E. rewrite Er in E.
  destruct (buys ob) as [|b0 br] eqn:Eb.
  { injection E as <- <- _ _. exists []. split; [constructor|]. split; [auto|]. destruct (price_direction h ob last); [intros f []|split; [lia|intros f []]|intros _; split; [lia|intros f []]]. }
  destruct (sells ob) as [|s0 sr] eqn:Es.
  { injection E as <- <- _ _. exists []. split; [constructor|]. split; [auto|]. destruct (price_direction h ob last); [intros f []|split; [lia|intros f []]|intros _; split; [lia|intros f []]]. }
  rewrite <- Eb, <- Es in *. clear b0 br s0 sr Eb Es.
  (* the first phase *)
  assert (H1 : exists h1 qd1 m1 tr1, (match r with Some (h1, q) => (h1, q, true) | None => (h, 0, false) end) = (h1, qd1, m1) /\
     trace h tr1 h1 /\ (forall f, In f tr1 -> f_price f = last) /\
     (price_direction h ob last = PriceIncreasing -> forall t q, In t (sells ob) -> fst t <= last -> In q (snd t) -> matchable_amount (get h1 q) last = 0) /\
     (price_direction h ob last = PriceDecreasing -> P18 <= last -> forall t q, In t (buys ob) -> last <= fst t -> In q (snd t) -> matchable_amount (get h1 q) last = 0)).
  { assert (Hup : price_direction h ob last = PriceIncreasing -> side_total h last (side_prefix true last (sells ob)) < side_total h last (side_prefix false last (buys ob))).
    { intros D. apply DI in D. rewrite VB2, VS2. rewrite (volume_add _ _ _ last h (buy_split last) (buy_disj last)). pose proof (volume_nonneg (buy_eq last) last h Hf Hl). lia. }
    assert (Hdn : price_direction h ob last = PriceDecreasing -> side_total h last (side_prefix false last (buys ob)) < side_total h last (side_prefix true last (sells ob))).
    { intros D. apply DD in D. rewrite VB2, VS2. rewrite (volume_add _ _ _ last h (sell_split last) (sell_disj last)). pose proof (volume_nonneg (sell_eq last) last h Hf Hl). lia. }
    assert (Pin : forall inc ts t q, StronglySorted (tick_order inc) (map fst ts) -> In t ts -> (if inc : bool then fst t <= last else last <= fst t) -> In q (snd t) -> In q (flat_map snd (side_prefix inc last ts))).
    { intros inc ts t q H2 H3 H4 H5. apply in_flat_map. exists t. split; [apply in_prefix_price; assumption|assumption]. }
    assert (Pz : forall inc d ts t q, side_wf h inc d ts -> side_total h last (side_prefix inc last ts) <= 0 -> In t ts -> (if inc : bool then fst t <= last else last <= fst t) -> In q (snd t) -> matchable_amount (get h q) last = 0).
    { intros inc d ts t q H2 H3 H4 H5 H6. rewrite side_total_sum in H3.
      apply (total_zero_each h (flat_map snd (side_prefix inc last ts)) last); auto; [|apply Pin with (t := t); auto; apply (sw_sorted _ _ _ _ H2)].
      intros p Hp. apply (side_wf_in h inc d ts p H2). destruct (side_prefix_app inc last ts) as [rest Er']. rewrite Er', flat_map_app. apply in_or_app. auto. }
    pose proof (find_matchable_exact h ob last Hwf Hl HB HS) as FE. cbv zeta in FE.
    destruct r as [[h1 q1]|].
    - destruct Hr as (tr1 & M & _ & Hpr & m1 & Em & Hm & _ & _ & _ & _ & _ & FB & FS). exists h1, q1, true, tr1. split; [reflexivity|].
      split; [exact (mr_trace _ _ _ _ _ _ M)|]. split; [assumption|]. split.
      + intros D t q Ht Hle Hq. specialize (Hup D). rewrite FE, Z.min_r in Em by lia. destruct (0 <? _); [|discriminate Em]. injection Em as <-.
        apply FS; [lia|]. apply (Pin true (sells ob) t q); auto. apply (sw_sorted _ _ _ _ HS).
      + intros D H1 t q Ht Hge Hq. specialize (Hdn D). rewrite FE, Z.min_l in Em by lia. destruct (0 <? _); [|discriminate Em]. injection Em as <-.
        apply FB; [lia|]. apply (Pin false (buys ob) t q); auto. apply (sw_sorted _ _ _ _ HB).
    - exists h, 0, false, []. split; [reflexivity|]. split; [constructor|]. split; [intros f []|].
      assert (FN : forall x, find_matchable_single h ob last = Some (Some x) -> False).
      { intros x Ex. unfold match_single in Er. rewrite Ex in Er. destruct (distribute_to_ticks iter h _ _ _) as [[? ?]|]; [|discriminate Er].
        destruct (distribute_to_ticks iter _ _ _ _) as [[? ?]|]; discriminate Er. }
      split.
      + intros D t q Ht Hle Hq. specialize (Hup D). rewrite Z.min_r in FE by lia. specialize (FE ltac:(right; lia)).
        destruct (Z.ltb_spec 0 (side_total h last (side_prefix true last (sells ob)))) as [_|Hz]; [exfalso; eapply FN; exact FE|].
        apply (Pz true Sell (sells ob) t q); auto.
      + intros D H1 t q Ht Hge Hq. specialize (Hdn D). rewrite Z.min_l in FE by lia. specialize (FE ltac:(left; lia)).
        destruct (Z.ltb_spec 0 (side_total h last (side_prefix false last (buys ob)))) as [_|Hz]; [exfalso; eapply FN; exact FE|].
        apply (Pz false Buy (buys ob) t q); auto. }
  destruct H1 as (h1 & qd1 & m1 & tr1 & Em & T1 & P1 & ZS & ZB). rewrite Em in E. clear Em Er Hr.
  pose proof (trace_static _ _ _ T1) as St. pose proof (trace_wf _ _ _ T1 Hwf) as Hwf1.
  assert (Hst : forall q, o_dir (get h1 q) = o_dir (get h q)) by (intros q; apply St).
  assert (Hlen : length h1 = length h) by (apply St).
  assert (HB1 : side_wf h1 false Buy (buys ob)) by (apply (side_wf_static h); assumption).
  assert (HS1 : side_wf h1 true Sell (sells ob)) by (apply (side_wf_static h); assumption).
  destruct (price_direction h ob last) eqn:D.
  - injection E as <- <- _ _. exists tr1. auto.
  - assert (Hz : forall t, In t (sells ob) -> fst t <= last -> total_matchable h1 (snd t) (fst t) = 0).
    { intros t Ht Hle. apply zero_total. intros q Hq. destruct (HSp t q Ht Hq) as (Hq1 & Hq2 & _).
      apply (sell_zero_mono (get h1 q) last); [apply Hwf1; lia|rewrite Hst; assumption| |apply (ZS eq_refl t q Ht Hle Hq)].
      split; [apply (sw_pos _ _ _ _ HS t Ht)|assumption]. }
    destruct (loop_skip_up iter last (S (length (buys ob) + length (sells ob))) h1 (buys ob) (sells ob) last qd1 m1)
      as (f' & b0 & bs' & s0 & ss' & E' & Eb & Es & L & G); auto.
    { exact (sw_sorted _ _ _ _ HS). }
    rewrite E' in E. rewrite Eb in HB1. rewrite Es in HS1.
    destruct (match_loop_ok iter Hi PriceIncreasing f' h1 bs' ss' last qd1 m1 Hwf1 (side_wf_suffix _ _ _ _ _ HB1) (side_wf_suffix _ _ _ _ _ HS1) L)
      as (h2 & mp2 & qd2 & m2 & tr2 & E2 & M2 & _ & C2 & C3 & C4 & C5).
    rewrite E2 in E. injection E as <- <- _ _. exists (tr1 ++ tr2). split; [eapply trace_app; [exact T1|exact (mr_trace _ _ _ _ _ _ M2)]|]. split.
    + destruct tr2 as [|g tr2]; [left; apply C2; reflexivity|right]. destruct (C3 ltac:(discriminate)) as (f & Hin & Ef). exists f. split; [apply in_or_app; auto|assumption].
    + assert (Hmp : last <= mp2).
      { destruct tr2 as [|g tr2]; [rewrite (C2 eq_refl); lia|]. destruct (C3 ltac:(discriminate)) as (f & Hin & Ef). destruct (C4 f Hin) as (t & Ht & Ef'). specialize (G t Ht). lia. }
      split; [exact Hmp|]. intros f Hin. apply in_app_or in Hin. destruct Hin as [Hin|Hin]; [rewrite (P1 f Hin); lia|].
      pose proof (C5 f Hin) as Hle. destruct (C4 f Hin) as (t & Ht & Ef). specialize (G t Ht). cbn in Hle. lia.
  - destruct (Z.leb_spec P18 last) as [Hone|Hone].
    + assert (Hz : forall t, In t (buys ob) -> last <= fst t -> total_matchable h1 (snd t) (fst t) = 0).
      { intros t Ht Hle. apply zero_total. intros q Hq. destruct (HBp t q Ht Hq) as (Hq1 & Hq2 & _).
        apply (buy_zero_mono (get h1 q) last); [apply Hwf1; lia|rewrite Hst; assumption|lia|apply (ZB eq_refl Hone t q Ht Hle Hq)]. }
      destruct (loop_skip_down iter last (S (length (buys ob) + length (sells ob))) h1 (buys ob) (sells ob) last qd1 m1)
        as (f' & b0 & bs' & s0 & ss' & E' & Eb & Es & L & G); auto.
      { exact (sw_sorted _ _ _ _ HB). }
      rewrite E' in E. rewrite Eb in HB1. rewrite Es in HS1.
      destruct (match_loop_ok iter Hi PriceDecreasing f' h1 bs' ss' last qd1 m1 Hwf1 (side_wf_suffix _ _ _ _ _ HB1) (side_wf_suffix _ _ _ _ _ HS1) L)
        as (h2 & mp2 & qd2 & m2 & tr2 & E2 & M2 & _ & C2 & C3 & C4 & C5).
      rewrite E2 in E. injection E as <- <- _ _. exists (tr1 ++ tr2). split; [eapply trace_app; [exact T1|exact (mr_trace _ _ _ _ _ _ M2)]|]. split.
      * destruct tr2 as [|g tr2]; [left; apply C2; reflexivity|right]. destruct (C3 ltac:(discriminate)) as (f & Hin & Ef). exists f. split; [apply in_or_app; auto|assumption].
      * intros _. assert (Hmp : mp2 <= last).
        { destruct tr2 as [|g tr2]; [rewrite (C2 eq_refl); lia|]. destruct (C3 ltac:(discriminate)) as (f & Hin & Ef). destruct (C4 f Hin) as (t & Ht & Ef'). specialize (G t Ht). lia. }
        split; [exact Hmp|]. intros f Hin. apply in_app_or in Hin. destruct Hin as [Hin|Hin]; [rewrite (P1 f Hin); lia|].
        pose proof (C5 f Hin) as Hle. destruct (C4 f Hin) as (t & Ht & Ef). specialize (G t Ht). cbn in Hle. lia.
    + destruct (match_loop_ok iter Hi PriceDecreasing (S (length (buys ob) + length (sells ob))) h1 (buys ob) (sells ob) last qd1 m1 Hwf1 HB1 HS1 ltac:(lia))
        as (h2 & mp2 & qd2 & m2 & tr2 & E2 & M2 & _ & C2 & C3 & C4).
      rewrite E2 in E. injection E as <- <- _ _. exists (tr1 ++ tr2). split; [eapply trace_app; [exact T1|exact (mr_trace _ _ _ _ _ _ M2)]|]. split.
      * destruct tr2 as [|g tr2]; [left; apply C2; reflexivity|right]. destruct (C3 ltac:(discriminate)) as (f & Hin & Ef). exists f. split; [apply in_or_app; auto|assumption].
      * intros H1. lia.
Qed.
