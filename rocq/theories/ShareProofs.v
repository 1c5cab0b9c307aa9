(** Lower bound of what each order receives from the proportional split. *)
From Verif Require Import Base Dec DecProofs OrderModel MatchModel MatchSpec KeyedProofs OrderProofs MatchProofs.
From Coq Require Import Permutation.

(** The share of an order of amount [a] among orders of total amount [total] when [amt] is
    distributed: the proportion is truncated to 18 decimals, the product to an integer. *)
Definition prop_share (a total amt : Z) : Z := (a * P18 / total) * amt / P18.

Lemma first_share_val h price amt total p : wf_heap h -> 0 < price -> (p < length h)%nat -> 0 <= amt ->
  o_amt (get h p) <= total ->
  opt_or0 (first_share h price amt total p) = Z.min (matchable_amount (get h p) price) (prop_share (o_amt (get h p)) total amt).
Proof.
  intros Hwf Hpr Hlt Hamt Htot. pose proof (matchable_le_open (get h p) price (Hwf p Hlt) Hpr) as Hm.
  destruct (Hwf p Hlt) as (_ & Hop & _). unfold first_share, prop_share. pose proof P18_pos as H18.
  set (m := matchable_amount (get h p) price) in *.
  assert (Hn : 0 < total -> 0 <= o_amt (get h p) * P18 / total) by (intros; apply Z.div_pos; nia).
  destruct (Z.eqb_spec m 0) as [E|E].
  - cbn. destruct (Z_lt_le_dec 0 total) as [Ht|Ht].
    + specialize (Hn Ht). assert (0 <= o_amt (get h p) * P18 / total * amt / P18) by (apply Z.div_pos; nia). lia.
    + assert (Ez : total = 0) by lia. assert (Ea : o_amt (get h p) = 0) by lia. rewrite Ez, Ea, E. reflexivity.
  - assert (0 < total) as Ht by lia. specialize (Hn Ht).
    rewrite (dquo_trunc_nn (of_int (o_amt (get h p))) (of_int total)) by (unfold of_int; nia).
    unfold of_int. rewrite (Z.mul_comm total P18).
    replace (o_amt (get h p) * P18 * P18) with ((o_amt (get h p) * P18) * P18) by lia.
    rewrite (Z.mul_comm P18 total), Z.div_mul_cancel_r by lia. unfold dmul_int.
    rewrite dtrunc_nn by nia.
    assert (0 <= o_amt (get h p) * P18 / total * amt / P18) by (apply Z.div_pos; nia).
    destruct (Z.ltb_spec 0 (Z.min m (o_amt (get h p) * P18 / total * amt / P18))); cbn [opt_or0]; lia.
Qed.

Lemma prop_share_mono a total total' amt : 0 <= a -> 0 < total' <= total -> 0 <= amt ->
  prop_share a total amt <= prop_share a total' amt.
Proof.
  intros Ha Ht Hamt. unfold prop_share. pose proof P18_pos. apply Z.div_le_mono; [lia|].
  apply Z.mul_le_mono_nonneg_r; [lia|]. apply Z.div_le_compat_l; nia.
Qed.

Lemma second_share_ge h price : forall l rem, 0 <= rem ->
  (forall p m, In (p, m) l -> 0 <= opt_or0 m <= matchable_amount (get h p) price) ->
  forall p m', NoDup (map fst l) -> In (p, m') (second_share h price rem l) -> exists m, In (p, m) l /\ opt_or0 m <= opt_or0 m'.
Proof.
  induction l as [|[q n] l IH]; intros rem Hrem H p m' Hnd Hin; [destruct Hin|]. cbn [second_share] in Hin.
  destruct (Z.eqb_spec rem 0) as [E|E].
  - exists m'. split; [assumption|lia].
  - destruct (H q n (or_introl eq_refl)) as [H1 H2]. destruct Hin as [Eq|Hin].
    + injection Eq as <- <-. exists n. split; [left; reflexivity|]. cbn [opt_or0]. lia.
    + cbn in Hnd. inversion Hnd; subst. destruct (IH (rem - Z.min rem (matchable_amount (get h q) price - opt_or0 n))
        ltac:(lia) (fun q' n' Hq => H q' n' (or_intror Hq)) p m' ltac:(assumption) Hin) as (m & Hm & Hle).
      exists m. split; [right; assumption|assumption].
Qed.

Lemma fill_list_open price : forall l h h' qd, NoDup (map fst l) -> (forall p m, In (p, m) l -> (p < length h)%nat) ->
  fill_list h price l = Some (h', qd) ->
  (forall p, ~ In p (map fst l) -> get h' p = get h p) /\
  forall p m, In (p, m) l -> o_open (get h' p) = o_open (get h p) - m.
Proof.
  induction l as [|[q n] l IH]; intros h h' qd Hnd Hlt E.
  - cbn in E. injection E as <- <-. split; [reflexivity|intros p m []].
  - cbn [fill_list] in E. cbn in Hnd. inversion Hnd as [|? ? Hn Hd]; subst.
    unfold fill_order in E. destruct (matchable_amount (get h q) price <? n); [discriminate|].
    set (h1 := upd h q (filled (get h q) n price)) in *.
    destruct (fill_list h1 price l) as [[h2 d2]|] eqn:E2; [|discriminate]. injection E as <- <-.
    assert (L1 : length h1 = length h) by apply upd_length.
    assert (Hlt1 : forall p m, In (p, m) l -> (p < length h1)%nat) by (intros p m Hp; rewrite L1; apply (Hlt p m); right; assumption).
    destruct (IH h1 h2 d2 Hd Hlt1 E2) as [A B]. split.
    + intros p Hp. cbn in Hp. rewrite A by tauto. unfold h1. apply get_upd_other. tauto.
    + intros p m [Eq|Hin].
      * injection Eq as -> ->. rewrite A by assumption. unfold h1. rewrite get_upd_same; [reflexivity|].
        apply (Hlt p m). left. reflexivity.
      * rewrite (B p m Hin). unfold h1. rewrite get_upd_other; [reflexivity|].
        intros ->. apply Hn. apply in_map_iff. exists (p, m). auto.
Qed.

Section Share.
  Variable iter : list (nat * Z) -> list (nat * Z).
  Hypothesis Hiter : is_perm_iter iter.

  Lemma dist_orders_share price d : 0 < price -> no_dust d price -> forall fuel h ps amt h' qd, wf_heap h -> ptrs_ok h ps d price ->
    (length ps < fuel)%nat -> 0 <= amt -> dist_orders iter fuel h ps amt price = Some (h', qd) ->
    forall p, In p ps ->
      Z.min (matchable_amount (get h p) price) (prop_share (o_amt (get h p)) (total_amount h ps) amt)
      <= o_open (get h p) - o_open (get h' p).
  Proof.
    intros Hpr Hdust. induction fuel as [|fuel IH]; intros h ps amt h' qd Hwf Hok Hfuel Hamt E0 p0 Hp0; [lia|].
    pose proof Hok as Hok0. destruct Hok as [Hnd Hok].
    assert (Hlt : forall p, In p ps -> (p < length h)%nat) by (intros p Hp; apply Hok; assumption).
    assert (Htot : forall p, In p ps -> o_amt (get h p) <= total_amount h ps).
    { intros p Hp. rewrite total_amount_sum. apply (sumZ_in_le (fun p => o_amt (get h p))); [|assumption].
      intros r Hr. destruct (Hwf r (Hlt r Hr)) as (_ & H & _). lia. }
    cbn [dist_orders] in E0. set (total := total_amount h ps) in *.
    set (l1 := map (fun p => (p, first_share h price amt total p)) ps) in *.
    assert (Hl1 : forall p m, In (p, m) l1 -> 0 <= opt_or0 m <= matchable_amount (get h p) price).
    { intros p m Hin. unfold l1 in Hin. apply in_map_iff in Hin. destruct Hin as (q & E & Hq). injection E as -> <-.
      apply first_share_bounds; auto. }
    assert (Hs1 : alloc_sum l1 <= amt) by (apply first_shares_sum; auto).
    assert (Hf1 : map fst l1 = ps) by (unfold l1; rewrite map_map; cbn; apply map_id).
    set (mt := fold_left (fun acc pm => acc + opt_or0 (snd pm)) l1 0) in *.
    assert (Emt : mt = alloc_sum l1) by (unfold mt; rewrite fold_left_sum; unfold alloc_sum; lia).
    destruct (second_share_spec h price l1 (amt - mt) ltac:(lia) Hl1) as (F2 & B2 & S2).
    pose proof (second_share_ge h price l1 (amt - mt) ltac:(lia) Hl1) as G2. rewrite Hf1 in G2.
    set (l2 := second_share h price (amt - mt) l1) in *. rewrite Hf1 in F2, S2.
    assert (Hnd2 : NoDup (map fst l2)) by (rewrite F2; assumption).
    assert (Hin2 : forall p m, In (p, m) l2 -> In p ps).
    { intros p m Hin. rewrite <- F2. apply in_map_iff. exists (p, m). auto. }
    (* share of p0 after the second loop *)
    assert (Hp2 : exists m0, In (p0, m0) l2 /\ opt_or0 (first_share h price amt total p0) <= opt_or0 m0).
    { rewrite <- F2 in Hp0. apply in_map_iff in Hp0. destruct Hp0 as ([q m0] & Eq & Hin). cbn in Eq. subst q.
      exists m0. split; [assumption|]. destruct (G2 p0 m0 Hnd Hin) as (m & Hm & Hle).
      unfold l1 in Hm. apply in_map_iff in Hm. destruct Hm as (q & E & Hq). injection E as -> <-. assumption. }
    destruct Hp2 as (m0 & Hm0 & Hge). rewrite <- (first_share_val h price amt total p0 Hwf Hpr (Hlt p0 Hp0) Hamt (Htot p0 Hp0)).
    assert (Hso : share_ok h price (p0, m0) = negb (opt_or0 m0 =? 0)).
    { apply (share_ok_no_dust h price d); auto. apply Hok; assumption. apply (B2 _ _ Hm0). }
    destruct (filter (fun pm => negb (share_ok h price pm)) l2) as [|u us] eqn:Eun.
    - set (l3 := map (fun pm => (fst pm, opt_or0 (snd pm))) l2) in *.
      assert (F3 : map fst l3 = ps) by (unfold l3; rewrite map_map; cbn; exact F2).
      assert (Hp3 : Permutation (iter l3) l3) by apply Hiter.
      destruct (fill_list_open price (iter l3) h h' qd) as [_ B]; [| |exact E0|].
      { eapply Permutation_NoDup; [apply Permutation_map, Permutation_sym; exact Hp3|]. rewrite F3. assumption. }
      { intros p m Hin. apply (Permutation_in _ Hp3) in Hin. unfold l3 in Hin. apply in_map_iff in Hin.
        destruct Hin as ([q n] & Eq & Hq). cbn in Eq. injection Eq as -> <-. eauto. }
      rewrite (B p0 (opt_or0 m0)); [lia|]. apply (Permutation_in _ (Permutation_sym Hp3)).
      unfold l3. apply in_map_iff. exists (p0, m0). auto.
    - assert (Hune : exists u0, In u0 l2 /\ share_ok h price u0 = false).
      { exists u. assert (In u (filter (fun pm => negb (share_ok h price pm)) l2)) as Hu by (rewrite Eun; left; reflexivity).
        apply filter_In in Hu. destruct Hu as [Hu1 Hu2]. split; [assumption|]. destruct (share_ok h price u); [discriminate|reflexivity]. }
      destruct Hune as (u0 & Hu0 & Hu1).
      assert (Hlen2 : length l2 = length ps) by (rewrite <- F2, map_length; reflexivity).
      assert (Hmono : forall qs, incl qs ps -> NoDup qs -> (length qs < fuel)%nat -> dist_orders iter fuel h qs amt price = Some (h', qd) -> 0 <= o_open (get h p0) - o_open (get h' p0)).
      { intros qs Hi Hn Hl E. destruct (dist_orders_ok iter Hiter price d Hpr fuel h qs amt Hwf) as (h2 & qd2 & a & E2 & P & _); auto.
        - apply (ptrs_ok_sub h ps); auto.
        - rewrite E in E2. injection E2 as <- <-. destruct P as (tr & T & _).
          destruct (trace_filled_by h tr h' p0 T) as (HF & _ & _ & _ & _ & _ & _ & Eo & _). rewrite Eo.
          assert (0 <= sumZ (map fst (fills_of p0 tr))); [|lia]. apply sumZ_map_nonneg. intros x Hx.
          rewrite Forall_forall in HF. specialize (HF x Hx). lia. }
      destruct (filter (share_ok h price) l2) as [|w ws] eqn:Em.
      + assert (Hz : share_ok h price (p0, m0) = false).
        { destruct (share_ok h price (p0, m0)) eqn:Eso; [|reflexivity].
          assert (In (p0, m0) (filter (share_ok h price) l2)) as Hc by (apply filter_In; auto). rewrite Em in Hc. destruct Hc. }
        assert (Hps : ps <> []) by (intros ->; destruct Hp0).
        pose proof (Hmono (removelast ps) (removelast_incl ps) (removelast_NoDup ps Hnd)
          ltac:(pose proof (removelast_length ps Hps); lia) E0).
        rewrite Hso in Hz. destruct (Z.eqb_spec (opt_or0 m0) 0); [lia|discriminate].
      + rewrite <- Em in E0. set (l3 := filter (share_ok h price) l2) in *.
        assert (Hincl : incl (map fst l3) ps).
        { intros p Hp. apply in_map_iff in Hp. destruct Hp as ([q n] & <- & Hq). apply filter_In in Hq. destruct Hq as [Hq _]. eauto. }
        assert (Hnd3 : NoDup (map fst l3)) by (apply map_fst_filter_NoDup; assumption).
        assert (Hlen3 : (length (map fst l3) < fuel)%nat).
        { rewrite map_length. pose proof (filter_length_lt (share_ok h price) l2 u0 Hu0 Hu1) as H. fold l3 in H. lia. }
        destruct (share_ok h price (p0, m0)) eqn:Es.
        * assert (Hp3 : In p0 (map fst l3)).
          { apply in_map_iff. exists (p0, m0). split; [reflexivity|]. apply filter_In. auto. }
          pose proof (IH h (map fst l3) amt h' qd Hwf ltac:(apply (ptrs_ok_sub h ps); auto) Hlen3 Hamt E0 p0 Hp3) as HI.
          destruct (Hwf p0 (Hlt p0 Hp0)) as (_ & Hop & _).
          pose proof (matchable_le_open (get h p0) price (Hwf p0 (Hlt p0 Hp0)) Hpr) as Hmo.
          rewrite (first_share_val h price amt total p0 Hwf Hpr (Hlt p0 Hp0) Hamt (Htot p0 Hp0)).
          destruct (Z_le_gt_dec (o_amt (get h p0)) 0) as [Hz|Hz].
          -- pose proof (Hmono (map fst l3) Hincl Hnd3 Hlen3 E0). lia.
          -- assert (Ht3 : 0 < total_amount h (map fst l3) <= total).
             { unfold total. rewrite !total_amount_sum. split.
               - pose proof (sumZ_in_le (fun p => o_amt (get h p)) (map fst l3) p0) as HH. cbv beta in HH.
                 assert (o_amt (get h p0) <= sumZ (map (fun p => o_amt (get h p)) (map fst l3))); [|lia].
                 apply HH; [|assumption]. intros q Hq. destruct (Hwf q (Hlt q (Hincl q Hq))) as (_ & H & _). lia.
               - rewrite <- F2. unfold l3. clear - Hwf Hlt Hin2.
                 assert (G : forall l, (forall q n, In (q, n) l -> In q ps) -> sumZ (map (fun q => o_amt (get h q)) (map fst (filter (share_ok h price) l))) <= sumZ (map (fun q => o_amt (get h q)) (map fst l))).
                 { induction l as [|[q n] l IHl]; intros Hl; [cbn; lia|]. cbn [filter].
                   specialize (IHl (fun q' n' H => Hl q' n' (or_intror H))).
                   destruct (Hwf q (Hlt q (Hl q n (or_introl eq_refl)))) as (_ & H & _).
                   destruct (share_ok h price (q, n)); cbn [map fst]; rewrite ?sumZ_cons; lia. }
                 apply G. assumption. }
             pose proof (prop_share_mono (o_amt (get h p0)) total (total_amount h (map fst l3)) amt ltac:(lia) Ht3 Hamt). lia.
        * pose proof (Hmono (map fst l3) Hincl Hnd3 Hlen3 E0). symmetry in Hso. apply negb_false_iff, Z.eqb_eq in Hso. lia.
  Qed.
End Share.

(** ** per order bounds *)
Lemma matchable_fill_dec o a p : wf_order o -> 0 < p -> 0 < a <= matchable_amount o p ->
  matchable_amount (filled o a p) p <= matchable_amount o p - a.
Proof.
  intros Hwf Hp Ha. pose proof P18_pos as H18.
  assert (Hwf' : wf_order (filled o a p)) by (apply filled_wf; auto; lia).
  destruct (matchable_spec _ _ Hwf' Hp) as (A & B & C).
  destruct (matchable_spec _ _ Hwf Hp) as (A0 & B0 & C0).
  set (m' := matchable_amount (filled o a p) p) in *. set (m := matchable_amount o p) in *.
  cbn [filled o_open o_dir o_offer o_paid] in A, B.
  assert (Hpa : 0 <= p * a) by nia. rewrite (fill_paid_val o a p Hpa) in B.
  (* m is the raw amount since it is positive *)
  assert (Hm : m = match o_dir o with Buy => Z.min (o_open o) ((o_offer o - o_paid o) * P18 / p) | Sell => o_open o end).
  { assert (Hm0 : 0 < m) by lia. clear - Hm0 Hwf Hp. unfold m, matchable_amount in *. destruct Hwf as (_ & Ho & Hpd & _). destruct (o_dir o).
    - rewrite <- quo_trunc_int by lia. revert Hm0. cbv zeta. set (raw := Z.min _ _). destruct (dtrunc (dmul_int p raw) =? 0); [lia|reflexivity].
    - revert Hm0. destruct (_ =? 0); [lia|reflexivity]. }
  destruct (o_dir o) eqn:D.
  - specialize (B eq_refl). pose proof (ceil_value_bounds p a) as Hc.
    assert (p * (m' + a) <= (o_offer o - o_paid o) * P18) by nia.
    assert (m' + a <= (o_offer o - o_paid o) * P18 / p) by (apply Z.div_le_lower_bound; assumption). lia.
  - lia.
Qed.

Lemma trace_fill_bound h tr h' price j : trace h tr h' -> wf_heap h -> (j < length h)%nat -> 0 < price ->
  (forall f, In f tr -> f_price f = price) -> sumZ (map fst (fills_of j tr)) <= matchable_amount (get h j) price.
Proof.
  intros T. induction T as [h|h i a p rest h' Hi Hp Ha Hacc Htr IH]; intros Hwf Hj Hpr Hall.
  - cbn. apply matchable_le_open; auto.
  - assert (Ep : p = price) by (apply (Hall (i, a, p)); left; reflexivity). subst p.
    set (h1 := upd h i (filled (get h i) a price)) in *.
    assert (Hwf1 : wf_heap h1).
    { eapply trace_wf; [|exact Hwf]. eapply (trace_cons h i a price []); eauto. constructor. }
    specialize (IH Hwf1 ltac:(unfold h1; rewrite upd_length; assumption) Hpr (fun f Hf => Hall f (or_intror Hf))).
    unfold fills_of in *. cbn [filter f_ptr fst]. destruct (Nat.eqb_spec i j) as [->|Hne].
    + cbn [map]. rewrite sumZ_cons. cbn [fst f_amt]. unfold h1 in IH. rewrite get_upd_same in IH by assumption.
      pose proof (matchable_fill_dec (get h j) a price (Hwf j Hj) Hpr Ha).
      change (f_amt (j, a, price)) with a. lia.
    + unfold h1 in IH. rewrite get_upd_other in IH by assumption. assumption.
Qed.

Lemma fills_sum tr : forall qs, NoDup qs -> (forall f, In f tr -> In (f_ptr f) qs) ->
  sumZ (map (fun q => sumZ (map fst (fills_of q tr))) qs) = trace_amt tr.
Proof.
  induction tr as [|[[i a] p] tr IH]; intros qs Hnd Hin.
  - unfold fills_of, trace_amt. cbn. clear. induction qs as [|q qs IHq]; [reflexivity|]. cbn [map]. rewrite sumZ_cons. cbn. lia.
  - unfold trace_amt. cbn [map]. rewrite sumZ_cons. fold (trace_amt tr). change (f_amt (i, a, p)) with a.
    rewrite <- (IH qs Hnd (fun f Hf => Hin f (or_intror Hf))).
    assert (Hi : In i qs) by (apply (Hin (i, a, p)); left; reflexivity).
    assert (E : forall q, sumZ (map fst (fills_of q ((i, a, p) :: tr))) = (if Nat.eqb i q then a else 0) + sumZ (map fst (fills_of q tr))).
    { intros q. unfold fills_of. cbn [filter]. change (f_ptr (i, a, p)) with i. destruct (Nat.eqb i q); cbn [map]; rewrite ?sumZ_cons; reflexivity. }
    transitivity (sumZ (map (fun q => (if Nat.eqb i q then a else 0) + sumZ (map fst (fills_of q tr))) qs)).
    { apply sumZ_map_ext. intros q _. apply E. }
    rewrite sumZ_map_add. f_equal.
    clear - Hnd Hi. induction qs as [|q qs IHq]; [destruct Hi|]. cbn [map]. rewrite sumZ_cons. inversion Hnd as [|? ? Hn Hd]; subst.
    destruct (Nat.eqb_spec i q) as [->|Hne].
    + rewrite (sumZ_map_ext _ (fun _ => 0)).
      * clear. assert (sumZ (map (fun _ : nat => 0) qs) = 0) by (induction qs as [|x qs IH]; [reflexivity|cbn [map]; rewrite sumZ_cons; lia]). lia.
      * intros x Hx. destruct (Nat.eqb_spec q x) as [->|]; [contradiction|reflexivity].
    + destruct Hi as [->|Hi]; [congruence|]. rewrite IHq by assumption. lia.
Qed.

Lemma dist_orders_split iter h qs d amt price : is_perm_iter iter -> Forall wf_order h ->
  NoDup qs -> (forall q, In q qs -> (q < length h)%nat /\ o_dir (get h q) = d /\ accepts (get h q) price) ->
  0 < price -> 0 <= amt ->
  exists h' qd, distribute_to_orders iter h qs amt price = Some (h', qd) /\
    (forall i, ~ In i qs -> get h' i = get h i) /\
    (forall q, In q qs -> 0 <= o_open (get h q) - o_open (get h' q) <= matchable_amount (get h q) price) /\
    sumZ (map (fun q => o_open (get h q) - o_open (get h' q)) qs) <= amt /\
    ((d = Buy \/ P18 <= price) -> amt <= total_matchable h qs price ->
       sumZ (map (fun q => o_open (get h q) - o_open (get h' q)) qs) = amt) /\
    ((d = Buy \/ P18 <= price) -> forall q, In q qs ->
       Z.min (matchable_amount (get h q) price) (prop_share (o_amt (get h q)) (total_amount h qs) amt)
       <= o_open (get h q) - o_open (get h' q)).
Proof.
  intros Hi Hwf Hnd Hok Hpr Hamt.
  assert (Hw : wf_heap h). { intros i Hlt. rewrite Forall_forall in Hwf. apply Hwf. apply nth_In. assumption. }
  unfold distribute_to_orders.
  destruct (dist_orders_ok iter Hi price d Hpr (S (length qs)) h qs amt Hw (conj Hnd Hok) ltac:(lia) Hamt) as (h' & qd & a & E & P & Ha & Hex).
  exists h', qd. split; [assumption|]. split; [intros i; apply (phase_other _ _ _ _ _ _ _ P)|].
  destruct P as (tr & T & _ & HF & Ea).
  assert (Eo : forall q, o_open (get h q) - o_open (get h' q) = sumZ (map fst (fills_of q tr))).
  { intros q. destruct (trace_filled_by h tr h' q T) as (_ & _ & _ & _ & _ & _ & _ & Eo & _). lia. }
  assert (Hs : sumZ (map (fun q => o_open (get h q) - o_open (get h' q)) qs) = a).
  { rewrite (sumZ_map_ext _ _ qs (fun q _ => Eo q)). rewrite Ea. apply fills_sum; [assumption|]. intros f Hf. apply HF. assumption. }
  split; [|split; [|split]].
  - intros q Hq. rewrite Eo. split.
    + apply sumZ_map_nonneg. intros x Hx. destruct (trace_filled_by h tr h' q T) as (HFF & _). rewrite Forall_forall in HFF. specialize (HFF x Hx). lia.
    + apply (trace_fill_bound h tr h' price q T Hw (proj1 (Hok q Hq)) Hpr). intros f Hf. apply HF. assumption.
  - lia.
  - intros Hd Hle. rewrite Hs. apply Hex; assumption.
  - intros Hd q Hq. apply (dist_orders_share iter Hi price d Hpr Hd (S (length qs)) h qs amt h' qd Hw (conj Hnd Hok) ltac:(lia) Hamt E q Hq).
Qed.
