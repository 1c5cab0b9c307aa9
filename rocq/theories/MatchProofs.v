(** Every matching function performs a trace of legal fills. *)
From Verif Require Import Base Dec DecProofs OrderModel MatchModel MatchSpec KeyedProofs OrderProofs.
From Coq Require Import Permutation Sorted.

Definition is_perm_iter (iter : list (nat * Z) -> list (nat * Z)) : Prop := forall l, Permutation (iter l) l.

Definition ptrs_ok (h : heap) (ps : list nat) (d : dir) (price : dec) : Prop :=
  NoDup ps /\ forall p, In p ps -> (p < length h)%nat /\ o_dir (get h p) = d /\ accepts (get h p) price.

Definition phase (h : heap) (ps : list nat) (price : dec) (h' : heap) (qd amt : Z) : Prop :=
  exists tr, trace h tr h' /\ qd = trace_diff h tr /\
    (forall f, In f tr -> In (f_ptr f) ps /\ f_price f = price) /\ amt = trace_amt tr.

Lemma phase_nil h ps price : phase h ps price h 0 0.
Proof. exists []. split; [constructor|]. repeat split. all: destruct H. Qed.

Lemma phase_incl h ps qs price h' qd amt : incl ps qs -> phase h ps price h' qd amt -> phase h qs price h' qd amt.
Proof.
  intros Hi (tr & T & D & F & A). exists tr. repeat split; auto; apply F in H; destruct H; auto.
Qed.

Lemma phase_app h ps1 ps2 price h1 h2 q1 q2 a1 a2 :
  phase h ps1 price h1 q1 a1 -> phase h1 ps2 price h2 q2 a2 ->
  phase h (ps1 ++ ps2) price h2 (q1 + q2) (a1 + a2).
Proof.
  intros (t1 & T1 & D1 & F1 & A1) (t2 & T2 & D2 & F2 & A2). exists (t1 ++ t2).
  split; [eapply trace_app; eassumption|]. split.
  - rewrite trace_diff_app. rewrite (trace_diff_static h h1 t2) in D2 by (eapply trace_static; eassumption). lia.
  - split; [|rewrite trace_amt_app; lia].
    intros f Hf. apply in_app_or in Hf. destruct Hf as [Hf|Hf].
    + destruct (F1 f Hf). split; [apply in_or_app; left|]; assumption.
    + destruct (F2 f Hf). split; [apply in_or_app; right|]; assumption.
Qed.

Lemma phase_static h ps price h' qd amt : phase h ps price h' qd amt -> heap_static h h'.
Proof. intros (tr & T & _). eapply trace_static; eassumption. Qed.
Lemma phase_wf h ps price h' qd amt : phase h ps price h' qd amt -> wf_heap h -> wf_heap h'.
Proof. intros (tr & T & _). eapply trace_wf; eassumption. Qed.
Lemma phase_other h ps price h' qd amt j : phase h ps price h' qd amt -> ~ In j ps -> get h' j = get h j.
Proof.
  intros (tr & T & _ & F & _) Hj. eapply trace_other; [eassumption|].
  intros Hin. apply Hj. apply in_map_iff in Hin. destruct Hin as (f & <- & Hf). apply F. assumption.
Qed.
Lemma phase_amt_nonneg h ps price h' qd amt : phase h ps price h' qd amt -> 0 <= amt.
Proof.
  intros (tr & T & _ & _ & ->). clear - T. induction T; [cbn; lia|].
  unfold trace_amt in *. cbn [map]. rewrite sumZ_cons. cbn [f_amt fst snd]. lia.
Qed.

Lemma ptrs_ok_static h h' ps d price : heap_static h h' -> ptrs_ok h ps d price -> ptrs_ok h' ps d price.
Proof.
  intros [L S] [Hn H]. split; [assumption|]. intros p Hp. destruct (H p Hp) as (A & B & C).
  destruct (S p) as (S1 & S2 & S3). split; [lia|]. split; [congruence|].
  apply (accepts_static _ _ _ (S p)). assumption.
Qed.

Lemma ptrs_ok_sub h ps qs d price : ptrs_ok h ps d price -> incl qs ps -> NoDup qs -> ptrs_ok h qs d price.
Proof. intros [_ H] Hi Hn. split; [assumption|]. intros p Hp. apply H. apply Hi. assumption. Qed.

Lemma total_matchable_ext h h' ps price : (forall p, In p ps -> get h' p = get h p) ->
  total_matchable h' ps price = total_matchable h ps price.
Proof. intros H. rewrite !total_matchable_sum. apply sumZ_map_ext. intros p Hp. rewrite H by assumption. reflexivity. Qed.

Lemma total_matchable_nonneg h ps price : wf_heap h -> 0 < price -> (forall p, In p ps -> (p < length h)%nat) ->
  0 <= total_matchable h ps price.
Proof.
  intros Hwf Hp H. rewrite total_matchable_sum. apply sumZ_map_nonneg. intros p Hin.
  apply (matchable_le_open (get h p) price); auto.
Qed.

Lemma total_matchable_perm h ps qs price : Permutation ps qs -> total_matchable h ps price = total_matchable h qs price.
Proof. intros H. rewrite !total_matchable_sum. apply sumZ_perm. apply Permutation_map. assumption. Qed.

Lemma total_matchable_app h ps qs price : total_matchable h (ps ++ qs) price = total_matchable h ps price + total_matchable h qs price.
Proof. rewrite !total_matchable_sum, map_app. apply sumZ_app. Qed.

(** one fill *)
Lemma fill_phase h p a price : (p < length h)%nat -> 0 < price -> 0 < a <= matchable_amount (get h p) price ->
  accepts (get h p) price ->
  phase h [p] price (upd h p (filled (get h p) a price)) (fill_diff (get h p) a price) a.
Proof.
  intros Hp Hpr Ha Hacc. exists [(p, a, price)].
  split; [constructor; auto; constructor|]. split; [unfold trace_diff; cbn; lia|].
  split; [|unfold trace_amt; cbn; lia]. intros f [<-|[]]. split; [left|]; reflexivity.
Qed.

Lemma fulfill_orders_ok price d : 0 < price -> forall ps h, wf_heap h -> ptrs_ok h ps d price ->
  exists h' qd, fulfill_orders h ps price = Some (h', qd) /\
    phase h ps price h' qd (total_matchable h ps price) /\
    (forall p, In p ps -> matchable_amount (get h' p) price = 0).
Proof.
  intros Hpr. induction ps as [|p ps IH]; intros h Hwf [Hnd Hok].
  - exists h, 0. cbn. split; [reflexivity|]. split; [apply phase_nil|intros p []].
  - inversion Hnd as [|? ? Hnotin Hnd']; subst.
    destruct (Hok p (or_introl eq_refl)) as (Hlt & Hd & Hacc).
    pose proof (matchable_le_open (get h p) price (Hwf p Hlt) Hpr) as Hm.
    set (m := matchable_amount (get h p) price) in *.
    assert (S1 : exists h1 d1, fulfill_order h p price = Some (h1, d1) /\ phase h [p] price h1 d1 m /\
                   matchable_amount (get h1 p) price = 0).
    { unfold fulfill_order. fold m. destruct (Z.ltb_spec 0 m) as [Hpos|Hz].
      - rewrite fill_order_some by (unfold m; lia).
        eexists _, _. split; [reflexivity|]. split.
        + apply fill_phase; auto. fold m. lia.
        + rewrite get_upd_same by assumption. apply matchable_after; auto.
      - exists h, 0. split; [reflexivity|]. assert (m = 0) as Em by lia. rewrite Em. split; [apply phase_nil|].
        fold m. assumption. }
    destruct S1 as (h1 & d1 & E1 & P1 & Z1).
    assert (Hsame : forall q, In q ps -> get h1 q = get h q).
    { intros q Hq. eapply phase_other; [exact P1|]. intros [->|[]]. contradiction. }
    destruct (IH h1) as (h2 & d2 & E2 & P2 & Z2).
    { eapply phase_wf; eassumption. }
    { eapply ptrs_ok_static; [eapply phase_static; eassumption|].
      split; [assumption|]. intros q Hq. apply Hok. right. assumption. }
    cbn [fulfill_orders]. rewrite E1, E2. exists h2, (d1 + d2). split; [reflexivity|]. split.
    + change (p :: ps) with ([p] ++ ps). rewrite total_matchable_app.
      rewrite <- (total_matchable_ext h h1 ps price Hsame).
      replace (total_matchable h [p] price) with m by (unfold total_matchable; cbn; lia).
      eapply phase_app; eassumption.
    + intros q [<-|Hq]; [|auto]. rewrite (phase_other _ _ _ _ _ _ p P2) by assumption. assumption.
Qed.

(** ** filling a list of shares *)
Lemma fill_list_ok price : 0 < price -> forall l h, wf_heap h -> NoDup (map fst l) ->
  (forall p m, In (p, m) l -> (p < length h)%nat /\ 0 < m <= matchable_amount (get h p) price /\ accepts (get h p) price) ->
  exists h' qd, fill_list h price l = Some (h', qd) /\ phase h (map fst l) price h' qd (sumZ (map snd l)).
Proof.
  intros Hpr. induction l as [|[p m] l IH]; intros h Hwf Hnd H.
  - exists h, 0. split; [reflexivity|apply phase_nil].
  - inversion Hnd as [|? ? Hnotin Hnd']; subst. cbn [map fst] in *.
    destruct (H p m (or_introl eq_refl)) as (Hlt & Hm & Hacc).
    cbn [fill_list]. rewrite fill_order_some by lia.
    pose proof (fill_phase h p m price Hlt Hpr Hm Hacc) as P1.
    set (h1 := upd h p (filled (get h p) m price)) in *.
    destruct (IH h1) as (h2 & d2 & E2 & P2).
    { eapply phase_wf; eassumption. }
    { assumption. }
    { intros q n Hq. destruct (H q n (or_intror Hq)) as (A & B & C).
      assert (q <> p). { intros ->. apply Hnotin. apply in_map_iff. exists (p, n). auto. }
      unfold h1. rewrite upd_length, get_upd_other by auto. auto. }
    rewrite E2. eexists _, _. split; [reflexivity|].
    cbn [map]. rewrite sumZ_cons. apply (phase_app _ [p] (map fst l)) with (h1 := h1); assumption.
Qed.

(** the Go map can be iterated in any order *)
Lemma fill_list_perm price l l' : Permutation l l' -> NoDup (map fst l) -> forall h, fill_list h price l = fill_list h price l'.
Proof.
  induction 1 as [|[p m] l l' Hp IH|[p m] [q n] l|l1 l2 l3 H1 IH1 H2 IH2]; intros Hnd h.
  - reflexivity.
  - cbn [fill_list]. inversion Hnd; subst. destruct (fill_order h p m price) as [[h1 d1]|]; [|reflexivity].
    rewrite IH by assumption. reflexivity.
  - cbn [fill_list]. cbn in Hnd. inversion Hnd as [|? ? Hn1 Hn2]; subst.
    assert (Hpq : q <> p) by (intros ->; apply Hn1; left; reflexivity).
    unfold fill_order.
    destruct (Z.ltb_spec (matchable_amount (get h q) price) n) as [A|A];
    destruct (Z.ltb_spec (matchable_amount (get h p) price) m) as [B|B]; try reflexivity.
    + rewrite get_upd_other by auto. destruct (Z.ltb_spec (matchable_amount (get h q) price) n); [reflexivity|lia].
    + rewrite get_upd_other by auto. destruct (Z.ltb_spec (matchable_amount (get h p) price) m); [reflexivity|lia].
    + rewrite !get_upd_other by auto.
      destruct (Z.ltb_spec (matchable_amount (get h q) price) n); [lia|].
      destruct (Z.ltb_spec (matchable_amount (get h p) price) m); [lia|].
      rewrite (upd_comm h q p) by auto.
      destruct (fill_list _ price l) as [[h2 d2]|]; [|reflexivity]. f_equal. f_equal. lia.
  - rewrite IH1 by assumption. apply IH2. eapply Permutation_NoDup; [|exact Hnd]. apply Permutation_map. assumption.
Qed.

(** ** proportional distribution *)
Definition alloc_sum (l : list (nat * option Z)) : Z := sumZ (map (fun pm => opt_or0 (snd pm)) l).

Lemma first_share_bounds h price amt total p : wf_heap h -> 0 < price -> (p < length h)%nat -> 0 <= amt ->
  o_amt (get h p) <= total ->
  let s := opt_or0 (first_share h price amt total p) in
  0 <= s <= matchable_amount (get h p) price /\ s * total <= o_amt (get h p) * amt.
Proof.
  intros Hwf Hpr Hlt Hamt Htot s. pose proof (matchable_le_open (get h p) price (Hwf p Hlt) Hpr) as Hm.
  destruct (Hwf p Hlt) as (_ & Hop & _). unfold s, first_share.
  set (m := matchable_amount (get h p) price) in *.
  assert (0 <= o_amt (get h p)) by lia.
  destruct (Z.eqb_spec m 0) as [E|E]; [cbn; nia|].
  assert (0 < total) by lia. pose proof P18_pos as H18.
  rewrite (dquo_trunc_nn (of_int (o_amt (get h p))) (of_int total)) by (unfold of_int; nia).
  unfold of_int. rewrite (Z.mul_comm total P18).
  replace (o_amt (get h p) * P18 * P18) with ((o_amt (get h p) * P18) * P18) by lia.
  rewrite (Z.mul_comm P18 total), Z.div_mul_cancel_r by lia.
  set (q := o_amt (get h p) * P18 / total).
  assert (0 <= q) by (apply Z.div_pos; nia).
  assert (Hq : q * total <= o_amt (get h p) * P18).
  { pose proof (Z.div_mod (o_amt (get h p) * P18) total ltac:(lia)).
    pose proof (Z.mod_pos_bound (o_amt (get h p) * P18) total ltac:(lia)). unfold q. lia. }
  assert (0 <= q * amt) by nia. unfold dmul_int.
  pose proof (dtrunc_bounds (q * amt) ltac:(lia)) as Ht.
  pose proof (dtrunc_nonneg (q * amt) ltac:(lia)) as Hn.
  set (t := dtrunc (q * amt)) in *.
  assert (Hfin : t * total <= o_amt (get h p) * amt).
  { assert (P18 * (t * total) <= P18 * (o_amt (get h p) * amt)); [|nia].
    assert (t * P18 * total <= q * amt * total) by nia.
    assert (q * total * amt <= o_amt (get h p) * P18 * amt) by nia. lia. }
  destruct (Z.ltb_spec 0 (Z.min m t)); cbn [opt_or0]; nia.
Qed.

Lemma first_shares_sum h price amt ps : wf_heap h -> 0 < price -> (forall p, In p ps -> (p < length h)%nat) -> 0 <= amt ->
  alloc_sum (map (fun p => (p, first_share h price amt (total_amount h ps) p)) ps) <= amt.
Proof.
  intros Hwf Hpr Hlt Hamt. set (total := total_amount h ps).
  assert (Hle : forall p, In p ps -> o_amt (get h p) <= total).
  { intros p Hp. unfold total. rewrite total_amount_sum. apply (sumZ_in_le (fun p => o_amt (get h p))); [|assumption].
    intros q Hq. destruct (Hwf q (Hlt q Hq)) as (_ & H & _). lia. }
  unfold alloc_sum. rewrite map_map. cbn [snd].
  assert (A : sumZ (map (fun p => total * opt_or0 (first_share h price amt total p)) ps) <= sumZ (map (fun p => amt * o_amt (get h p)) ps)).
  { apply sumZ_map_le. intros p Hp.
    pose proof (first_share_bounds h price amt total p Hwf Hpr (Hlt p Hp) Hamt (Hle p Hp)) as [_ B]. lia. }
  rewrite !sumZ_map_mul in A. rewrite <- total_amount_sum in A. fold total in A.
  destruct (Z_lt_le_dec 0 total) as [Hpos|Hz]; [nia|].
  assert (E : sumZ (map (fun p => opt_or0 (first_share h price amt total p)) ps) = sumZ (map (fun _ : nat => 0) ps)).
  { apply sumZ_map_ext. intros p Hp. unfold first_share.
    pose proof (matchable_le_open (get h p) price (Hwf p (Hlt p Hp)) Hpr) as Hm.
    destruct (Hwf p (Hlt p Hp)) as (_ & Hop & _). specialize (Hle p Hp).
    destruct (Z.eqb_spec (matchable_amount (get h p) price) 0); [reflexivity|lia]. }
  rewrite E. assert (sumZ (map (fun _ : nat => 0) ps) = 0); [|lia].
  clear. induction ps as [|p ps IH]; [reflexivity|]. cbn [map]. rewrite sumZ_cons. lia.
Qed.

Lemma second_share_spec h price : forall l rem, 0 <= rem ->
  (forall p m, In (p, m) l -> 0 <= opt_or0 m <= matchable_amount (get h p) price) ->
  let l' := second_share h price rem l in
  map fst l' = map fst l /\
  (forall p m, In (p, m) l' -> 0 <= opt_or0 m <= matchable_amount (get h p) price) /\
  alloc_sum l' = alloc_sum l + Z.min rem (sumZ (map (fun p => matchable_amount (get h p) price) (map fst l)) - alloc_sum l).
Proof.
  induction l as [|[p m] l IH]; intros rem Hrem H; cbn [second_share].
  - split; [reflexivity|]. split; [intros p m []|]. unfold alloc_sum. cbn. lia.
  - assert (Hs : forall l0, (forall p m, In (p, m) l0 -> 0 <= opt_or0 m <= matchable_amount (get h p) price) ->
              alloc_sum l0 <= sumZ (map (fun p => matchable_amount (get h p) price) (map fst l0))).
    { intros l0 H0. unfold alloc_sum. rewrite map_map. apply sumZ_map_le. intros [q n] Hq. cbn. apply H0. assumption. }
    destruct (Z.eqb_spec rem 0) as [->|Hne].
    + split; [reflexivity|]. split; [assumption|]. specialize (Hs _ H). lia.
    + destruct (H p m (or_introl eq_refl)) as [H1 H2].
      assert (H' : forall q n, In (q, n) l -> 0 <= opt_or0 n <= matchable_amount (get h q) price).
      { intros q n Hq. apply H. right. assumption. }
      set (M := matchable_amount (get h p) price) in *.
      set (add := Z.min rem (M - opt_or0 m)).
      destruct (IH (rem - add) ltac:(lia) H') as (I1 & I2 & I3).
      set (l' := second_share h price (rem - add) l) in *.
      split; [cbn; congruence|]. split.
      * intros q n [E|Hq]; [|auto]. injection E as <- <-. cbn [opt_or0]. fold M. lia.
      * unfold alloc_sum in *. cbn [map fst snd opt_or0]. rewrite !sumZ_cons, I3. fold M. specialize (Hs _ H'). unfold alloc_sum in Hs. lia.
Qed.

Lemma filter_length_le' {A} (f : A -> bool) l : (length (filter f l) <= length l)%nat.
Proof. induction l as [|x l IH]; [cbn; lia|]. cbn. destruct (f x); cbn; lia. Qed.

Lemma filter_length_lt {A} (f : A -> bool) l x : In x l -> f x = false -> (length (filter f l) < length l)%nat.
Proof.
  induction l as [|y l IH]; [intros []|]. intros [->|Hin] Hf.
  - cbn. rewrite Hf. pose proof (filter_length_le' f l). lia.
  - cbn. specialize (IH Hin Hf). destruct (f y); cbn; lia.
Qed.

Lemma removelast_incl {A} (l : list A) : incl (removelast l) l.
Proof.
  induction l as [|x l IH]; intros y Hy; [assumption|]. cbn in Hy. destruct l as [|z l]; [destruct Hy|].
  destruct Hy as [->|Hy]; [left; reflexivity|right; apply IH; assumption].
Qed.
Lemma removelast_NoDup {A} (l : list A) : NoDup l -> NoDup (removelast l).
Proof.
  induction l as [|x l IH]; intros H; [constructor|]. inversion H as [|? ? Hn Hd]; subst.
  cbn. destruct l as [|z l]; [constructor|]. constructor; [|apply IH; assumption].
  intros Hin. apply Hn. apply removelast_incl. assumption.
Qed.
Lemma removelast_length {A} (l : list A) : l <> [] -> (length (removelast l) < length l)%nat.
Proof.
  induction l as [|x l IH]; intros H; [congruence|]. cbn. destruct l as [|z l]; [cbn; lia|].
  cbn. specialize (IH ltac:(discriminate)). cbn in IH. lia.
Qed.

Lemma map_fst_filter_NoDup {B} (f : nat * B -> bool) l : NoDup (map fst l) -> NoDup (map fst (filter f l)).
Proof.
  induction l as [|[p m] l IH]; intros H; [constructor|]. cbn in *. inversion H as [|? ? Hn Hd]; subst.
  destruct (f (p, m)); cbn; [|auto]. constructor; [|auto].
  intros Hin. apply Hn. apply in_map_iff in Hin. destruct Hin as ([q n] & E & Hq). apply filter_In in Hq.
  apply in_map_iff. exists (q, n). tauto.
Qed.

Lemma map_fst_pair_eq {A B C} (f : A -> B -> C) (l : list (A * B)) : map fst (map (fun pm => (fst pm, f (fst pm) (snd pm))) l) = map fst l.
Proof. rewrite map_map. reflexivity. Qed.

(** "every positive share is acceptable": buys always, sells when the price is at least 1. *)
Definition no_dust (d : dir) (price : dec) : Prop := d = Buy \/ P18 <= price.

Lemma share_ok_no_dust h price d p m : no_dust d price -> o_dir (get h p) = d -> 0 < price -> 0 <= opt_or0 m ->
  share_ok h price (p, m) = negb (opt_or0 m =? 0).
Proof.
  intros Hnd Hd Hpr Hm. unfold share_ok. cbn [fst snd]. destruct (Z.eqb_spec (opt_or0 m) 0) as [E|E]; [reflexivity|].
  cbn [negb andb]. rewrite Hd. destruct Hnd as [->|Hpr2]; [reflexivity|].
  rewrite floor_value_dec by nia.
  assert (0 < floor_value price (opt_or0 m)).
  { pose proof (floor_value_bounds price (opt_or0 m)). pose proof P18_pos. nia. }
  destruct (Z.ltb_spec 0 (floor_value price (opt_or0 m))); [apply orb_true_r|lia].
Qed.

Lemma filter_all {A} (f : A -> bool) l : filter (fun x => negb (f x)) l = [] -> filter f l = l /\ forall x, In x l -> f x = true.
Proof.
  induction l as [|x l IH]; intros H; [split; [reflexivity|intros x []]|]. cbn in *.
  destruct (f x) eqn:E; cbn in H; [|discriminate]. destruct (IH H) as [HA HB]. split; [congruence|].
  intros y [<-|Hy]; auto.
Qed.

Section Dist.
  Variable iter : list (nat * Z) -> list (nat * Z).
  Hypothesis Hiter : is_perm_iter iter.

  Lemma dist_orders_ok price d : 0 < price -> forall fuel h ps amt, wf_heap h -> ptrs_ok h ps d price ->
    (length ps < fuel)%nat -> 0 <= amt ->
    exists h' qd a, dist_orders iter fuel h ps amt price = Some (h', qd) /\
      phase h ps price h' qd a /\ a <= amt /\
      (no_dust d price -> amt <= total_matchable h ps price -> a = amt).
  Proof.
    intros Hpr. induction fuel as [|fuel IH]; intros h ps amt Hwf Hok Hfuel Hamt; [lia|].
    destruct Hok as [Hnd Hok].
    assert (Hlt : forall p, In p ps -> (p < length h)%nat) by (intros p Hp; apply Hok; assumption).
    cbn [dist_orders]. set (total := total_amount h ps).
    set (l1 := map (fun p => (p, first_share h price amt total p)) ps).
    assert (Hl1 : forall p m, In (p, m) l1 -> 0 <= opt_or0 m <= matchable_amount (get h p) price).
    { intros p m Hin. unfold l1 in Hin. apply in_map_iff in Hin. destruct Hin as (q & E & Hq). injection E as -> <-.
      apply first_share_bounds; auto. unfold total. rewrite total_amount_sum.
      apply (sumZ_in_le (fun p => o_amt (get h p))); [|assumption].
      intros r Hr. destruct (Hwf r (Hlt r Hr)) as (_ & H & _). lia. }
    assert (Hs1 : alloc_sum l1 <= amt) by (apply first_shares_sum; auto).
    assert (Hf1 : map fst l1 = ps) by (unfold l1; rewrite map_map; cbn; apply map_id).
    set (mt := fold_left (fun acc pm => acc + opt_or0 (snd pm)) l1 0).
    assert (Emt : mt = alloc_sum l1) by (unfold mt; rewrite fold_left_sum; unfold alloc_sum; lia).
    destruct (second_share_spec h price l1 (amt - mt) ltac:(lia) Hl1) as (F2 & B2 & S2).
    set (l2 := second_share h price (amt - mt) l1) in *. rewrite Hf1 in F2, S2.
    rewrite <- total_matchable_sum in S2.
    assert (S2' : alloc_sum l2 = Z.min amt (total_matchable h ps price)) by lia.
    assert (Hnd2 : NoDup (map fst l2)) by (rewrite F2; assumption).
    assert (Hin2 : forall p m, In (p, m) l2 -> In p ps).
    { intros p m Hin. rewrite <- F2. apply in_map_iff. exists (p, m). auto. }
    destruct (filter (fun pm => negb (share_ok h price pm)) l2) as [|u us] eqn:Eun.
    - (* everyone accepted: fill *)
      destruct (filter_all (share_ok h price) l2 Eun) as [_ Hall].
      set (l3 := map (fun pm => (fst pm, opt_or0 (snd pm))) l2).
      assert (F3 : map fst l3 = ps) by (unfold l3; rewrite map_map; cbn; exact F2).
      assert (Hp3 : Permutation (iter l3) l3) by apply Hiter.
      destruct (fill_list_ok price Hpr (iter l3) h Hwf) as (h' & qd & E & P).
      { eapply Permutation_NoDup; [apply Permutation_map, Permutation_sym; exact Hp3|]. rewrite F3. assumption. }
      { intros p m Hin. apply (Permutation_in _ Hp3) in Hin. unfold l3 in Hin. apply in_map_iff in Hin.
        destruct Hin as ([q n] & Eq & Hq). cbn in Eq. injection Eq as -> <-.
        pose proof (B2 _ _ Hq) as Hb. pose proof (Hall _ Hq) as Hso. unfold share_ok in Hso. cbn [fst snd] in Hso.
        apply andb_true_iff in Hso. destruct Hso as [Hnz _]. destruct (Z.eqb_spec (opt_or0 n) 0); [discriminate|].
        destruct (Hok p (Hin2 _ _ Hq)) as (A & B & C). split; [assumption|]. split; [lia|assumption]. }
      assert (Esum : sumZ (map snd (iter l3)) = alloc_sum l2).
      { rewrite (sumZ_perm _ (map snd l3)) by (apply Permutation_map; assumption).
        unfold l3. rewrite map_map. reflexivity. }
      rewrite Esum in P. exists h', qd, (alloc_sum l2). split; [exact E|]. split.
      + eapply phase_incl; [|exact P]. intros p Hp.
        apply (Permutation_in p (Permutation_map fst Hp3)) in Hp. rewrite F3 in Hp. assumption.
      + split; [lia|]. intros _ Hle. lia.
    - assert (Hune : exists u0, In u0 l2 /\ share_ok h price u0 = false).
      { exists u. assert (In u (filter (fun pm => negb (share_ok h price pm)) l2)) as Hu by (rewrite Eun; left; reflexivity).
        apply filter_In in Hu. destruct Hu as [Hu1 Hu2]. split; [assumption|]. destruct (share_ok h price u); [discriminate|reflexivity]. }
      destruct Hune as (u0 & Hu0 & Hu1).
      assert (Hlen2 : length l2 = length ps) by (rewrite <- F2, map_length; reflexivity).
      destruct (filter (share_ok h price) l2) as [|w ws] eqn:Em.
      + (* nobody accepted: drop the last order *)
        assert (Hps : ps <> []).
        { intros Enil. destruct u0 as [up um]. apply Hin2 in Hu0. rewrite Enil in Hu0. destruct Hu0. }
        destruct (IH h (removelast ps) amt Hwf) as (h' & qd & a & E & P & Ha & Hex).
        { apply (ptrs_ok_sub h ps); [split; assumption|apply removelast_incl|apply removelast_NoDup; assumption]. }
        { pose proof (removelast_length ps Hps). lia. }
        { assumption. }
        exists h', qd, a. split; [exact E|]. split; [eapply phase_incl; [apply removelast_incl|exact P]|].
        split; [assumption|]. intros Hdust Hle.
        (* with no dust nobody accepted means amt = 0 *)
        assert (alloc_sum l2 = 0).
        { unfold alloc_sum. rewrite (sumZ_map_ext _ (fun _ => 0)).
          - clear. induction l2 as [|x l IHl]; [reflexivity|]. cbn [map]. rewrite sumZ_cons. lia.
          - intros [p m] Hpm. cbn [snd]. pose proof (B2 _ _ Hpm) as Hb.
            assert (Hso : share_ok h price (p, m) = false).
            { destruct (share_ok h price (p, m)) eqn:Eso; [|reflexivity].
              assert (In (p, m) (filter (share_ok h price) l2)) as Hc by (apply filter_In; auto). rewrite Em in Hc. destruct Hc. }
            rewrite (share_ok_no_dust h price d p m) in Hso; [|assumption|apply Hok; eauto|assumption|lia].
            destruct (Z.eqb_spec (opt_or0 m) 0); [assumption|discriminate]. }
        assert (amt = 0) by lia. apply phase_amt_nonneg in P. lia.
      + (* continue with the accepted ones *)
        rewrite <- Em. set (l3 := filter (share_ok h price) l2) in *.
        assert (Hincl : incl (map fst l3) ps).
        { intros p Hp. apply in_map_iff in Hp. destruct Hp as ([q n] & <- & Hq). apply filter_In in Hq. destruct Hq as [Hq _]. eauto. }
        destruct (IH h (map fst l3) amt Hwf) as (h' & qd & a & E & P & Ha & Hex).
        { apply (ptrs_ok_sub h ps); [split; assumption|assumption|apply map_fst_filter_NoDup; assumption]. }
        { rewrite map_length. pose proof (filter_length_lt (share_ok h price) l2 u0 Hu0 Hu1). fold l3 in H. lia. }
        { assumption. }
        exists h', qd, a. split; [rewrite Em in E |- *; exact E|]. split; [eapply phase_incl; eassumption|].
        split; [assumption|]. intros Hdust Hle. apply Hex; [assumption|].
        rewrite total_matchable_sum, map_map.
        assert (alloc_sum l3 = alloc_sum l2).
        { unfold alloc_sum, l3. clear - Hdust Hpr B2 Hok Hin2.
          assert (G : forall l, (forall p m, In (p, m) l -> In p ps /\ 0 <= opt_or0 m) ->
                   sumZ (map (fun pm => opt_or0 (snd pm)) (filter (share_ok h price) l)) = sumZ (map (fun pm => opt_or0 (snd pm)) l)).
          { induction l as [|[p m] l IHl]; intros Hl; [reflexivity|]. cbn [filter].
            destruct (Hl p m (or_introl eq_refl)) as [Hp1 Hp2].
            rewrite (share_ok_no_dust h price d p m); [|assumption|apply Hok; assumption|assumption|assumption].
            assert (IHl' := IHl (fun q n Hq => Hl q n (or_intror Hq))).
            destruct (Z.eqb_spec (opt_or0 m) 0) as [E0|E0]; cbn [negb map]; rewrite ?sumZ_cons; cbn [snd]; lia. }
          apply G. intros p m Hpm. split; [eauto|]. apply B2 in Hpm. lia. }
        assert (alloc_sum l3 <= sumZ (map (fun x => matchable_amount (get h (fst x)) price) l3)).
        { unfold alloc_sum. apply sumZ_map_le. intros [p m] Hpm. cbn. apply filter_In in Hpm. apply B2. apply Hpm. }
        lia.
  Qed.

  (** the iteration order of the map does not matter *)
  Lemma dist_orders_iter price : forall fuel h ps amt, NoDup ps ->
    dist_orders iter fuel h ps amt price = dist_orders (fun l => l) fuel h ps amt price.
  Proof.
    induction fuel as [|fuel IH]; intros h ps amt Hnd; [reflexivity|]. cbn [dist_orders].
    set (l1 := map (fun p => (p, first_share h price amt (total_amount h ps) p)) ps).
    set (rem := amt - _). set (l2 := second_share h price rem l1).
    assert (F2 : map fst l2 = ps).
    { assert (G : forall l r, map fst (second_share h price r l) = map fst l).
      { induction l as [|[p m] l IHl]; intros r; [reflexivity|]. cbn [second_share]. destruct (r =? 0); [reflexivity|]. cbn. f_equal. apply IHl. }
      unfold l2. rewrite G. unfold l1. rewrite map_map. cbn. apply map_id. }
    destruct (filter (fun pm => negb (share_ok h price pm)) l2) eqn:Eun.
    - apply fill_list_perm; [apply Hiter|]. eapply Permutation_NoDup; [apply Permutation_map, Permutation_sym, Hiter|].
      rewrite map_map. cbn [fst]. change (NoDup (map fst l2)). rewrite F2. assumption.
    - destruct (filter (share_ok h price) l2) eqn:Em.
      + apply IH. apply removelast_NoDup. assumption.
      + apply IH. rewrite <- Em. apply map_fst_filter_NoDup. rewrite F2. assumption.
  Qed.
End Dist.
