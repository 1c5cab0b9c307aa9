(** ** C75: an order is filled within its limit over its whole life *)
From Verif Require Import Base Dec DecProofs OrderModel MatchModel MatchSpec MatchProofs PoolModel KeeperModel KeeperLib KeeperSpec KeeperSpec2 KeeperMicro KeeperInv KeeperBank KeeperSteps KeeperTrade KeeperHist KeeperReqs LedgerSpec KeeperExpire KeeperExample OwnSpec KeeperOwn KeeperCancel LifeSpec Props_Keeper5 Props_Own.

Lemma explained_same o o' fs : order_later o o' -> ko_remaining o' = ko_remaining o -> ko_received o' = ko_received o -> ko_open o' = ko_open o -> explained_by o fs -> explained_by o' fs.
Proof.
  intros (_ & _ & _ & _ & _ & Ed & _ & Eo & _ & Ep & Ea & _) E1 E2 E3 (F & A & B & C). unfold explained_by, within_limit. rewrite Ed, Eo, Ep, Ea, E1, E2, E3. split; [exact F|]. split; [exact A|]. split; [exact B|exact C].
Qed.
Lemma explained_fills o o1 uo m fs gs : stands_for uo o -> filled_by uo gs m -> after_fills o o1 m -> explained_by o fs -> explained_by o1 (fs ++ gs).
Proof.
  intros (_ & Sd & Sp & _ & So & Sa & _ & Sop & Spd & Src) (F & Md & Mp & Ma & Mo & _ & _ & Mopen & Mpaid & Mrecv) -> (G & A & B & C). unfold explained_by, within_limit in *.
  cbn [ko_dir ko_price ko_open ko_amt ko_remaining ko_offer ko_received]. rewrite !map_app, !sumZ_app. split; [|split; [|split]].
  - apply Forall_app. split; [exact G|]. eapply Forall_impl; [|exact F]. intros f (F1 & F2 & F3). split; [exact F1|]. split; [exact F2|]. unfold accepts in F3. rewrite Sd, Sp in F3. exact F3.
  - rewrite Mopen, Ma, Sop. lia.
  - rewrite Mpaid, Spd, B. unfold fill_cost. rewrite Sd. destruct (ko_dir o); lia.
  - rewrite Mrecv, Src, C. unfold fill_gain. rewrite Sd. destruct (ko_dir o); lia.
Qed.
Definition all_explained (s : state) : Prop := forall i j o, get_order s i j = Some o -> exists fs, explained_by o fs.
Lemma explained_mic (Q : ctl) s s' : mic Q s s' -> str s -> stage_of Q <> STrade -> all_explained s -> all_explained s'.
Proof.
  intros M S N H i j o G. unfold get_order in G. destruct (orders_mic _ _ _ M) as [E|[(_ & pr & o0 & _ & _ & _ & _ & E1 & E2 & E3 & E)|[(o0 & o1 & G0 & _ & La & _ & [X|(E1 & E2 & E3)] & _ & E)|(_ & E)]]]; rewrite E in G.
  - exact (H i j o G).
  - rewrite mget_mset in G. destruct (key_eqb_spec (i, j) (ko_pair o0, ko_id o0)) as [_|_]; [|exact (H i j o G)]. injection G as <-. exists []. unfold explained_by. cbn [map sumZ]. change (sumZ []) with 0. split; [constructor|]. split; [lia|]. split; [lia|exact E3].
  - contradiction.
  - rewrite mget_mset in G. destruct (key_eqb_spec (i, j) (ko_pair o1, ko_id o1)) as [_|_]; [|exact (H i j o G)]. injection G as <-. destruct (H _ _ _ G0) as (fs & F). exists fs. exact (explained_same o0 o1 fs La E1 E2 E3 F).
  - apply mget_In in G. apply filter_In in G. exact (H i j o (snap_current _ _ _ (i_orders_sorted _ S) (proj1 G))).
Qed.
Lemma explained_mics (Q : ctl) s s' : mics Q s s' -> inv Q s -> stage_of Q <> STrade -> all_explained s -> all_explained s'.
Proof. induction 1 as [|s1 s2 s3 M1 M IH]; intros I N H; [exact H|]. exact (IH (inv_mic _ _ _ M1 I) N (explained_mic Q _ _ M1 (v_str _ _ I) N H)). Qed.

Lemma explained_batch Q iter s s' : reach (sane Q) (InBlock, s) -> is_perm_iter iter -> end_block iter s = Some s' -> all_explained s -> all_explained s'.
Proof.
  intros R Hi E H i j o' G'. destruct (Z.eq_dec (st_height s mod pm_batch_size (st_params s)) 0) as [B|B].
  - assert (BR : batch_runs Q s s') by (split; [exact R|]; split; [exact B|]; exists iter; auto).
    pose proof (run_later Q _ _ R (Step_end (sane Q) iter s s' Hi E)) as L. cbn [snd] in L. destruct (l_orders _ _ L i j o' G') as [(o & G & La)|(G & _)].
    + destruct (H i j o G) as (fs & F). destruct (live o) eqn:Lv.
      * destruct (C58_order_fate Q s s' i j o BR G Lv) as (_ & pr & sa & o1 & o2 & _ & _ & G2 & Ax & Ft). rewrite G' in G2. injection G2 as <-.
        assert (X : exists gs, explained_by o1 gs).
        { destruct Ft as [(_ & _ & ->)|(hu & uo & _ & _ & St & [(_ & -> & _)|(gs & m & _ & Fb & Af)])]; [exists fs; exact F|exists fs; exact F|exists (fs ++ gs); exact (explained_fills o o1 uo m fs gs St Fb Af F)]. }
        destruct X as (gs & X). exists gs. destruct Ax as [(-> & _)|(_ & _ & ->)]; exact X.
      * exists fs. rewrite (proj1 (proj2 (proj2 (proj2 (proj2 (proj2 (proj2 (proj2 (proj2 (proj2 (proj2 (proj2 (proj2 (proj2 (proj2 (proj2 (proj2 La)))))))))))))))) Lv). exact F.
    + exfalso. pose proof (reach_okp Q _ R) as I1. cbn [snd] in I1. destruct (end_block_mics (sane Q) iter s s' Hi I1 (fun p X => proj2 X) E) as (s1 & M1 & M2).
      pose proof (proj1 (batch_no_new _ _ _ M2 (or_intror eq_refl) (i, j)) (proj1 (batch_no_new _ _ _ M1 (or_introl eq_refl) (i, j)) G)) as X. unfold get_order in G'. rewrite X in G'. discriminate G'.
  - unfold end_block in E. apply Z.eqb_neq in B. rewrite B in E. injection E as <-. exact (H i j o' G').
Qed.

(** The record of every order ever in the store is explained by fills within its limit price. *)
Theorem C75_fills : forall Q ph s i j o, reach (sane Q) (ph, s) -> get_order s i j = Some o -> exists fs, explained_by o fs.
Proof.
  intros Q ph s i j o (s0 & G0 & R). revert i j o. change (all_explained s).
  assert (X : forall c c', runs (sane Q) c c' -> reach (sane Q) c -> all_explained (snd c) -> all_explained (snd c')).
  { clear. intros c c' R. induction R as [c|c1 c2 c3 R IH S]; intros Rc H; [exact H|]. specialize (IH Rc H). pose proof (reach_runs _ _ _ Rc R) as R2. pose proof (reach_okp Q _ R2) as I2.
    inversion S as [s t T|s m s' D Hq|iter s s' Hi D]; subst; cbn [snd] in *.
    - apply (explained_mics (mkCtl (sane Q) SBegin) s); [apply begin_block_mics; [reflexivity|exact T]|apply okp_st; exact I2|discriminate|exact IH].
    - apply (explained_mics (mkCtl (sane Q) SMsg) s); [eapply deliver_mics; eauto|exact I2|discriminate|exact IH].
    - exact (explained_batch Q iter s s' R2 Hi D IH). }
  apply (X (Between, s0) (ph, s) R).
  - exists s0. split; [exact G0|constructor].
  - destruct G0 as (p & b & h & t & _ & _ & _ & _ & ->). intros i j o G. discriminate G.
Qed.
Print Assumptions C75_fills.

Lemma fills_worth o fs : Forall (fun f => 0 < fst f /\ 0 < snd f /\ within_limit o (snd f)) fs ->
  match ko_dir o with
  | Buy => P18 * sumZ (map (fill_cost Buy) fs) <= ko_price o * sumZ (map fst fs) + (P18 - 1) * Z.of_nat (length fs)
  | Sell => ko_price o * sumZ (map fst fs) <= P18 * sumZ (map (fill_gain Sell) fs) + (P18 - 1) * Z.of_nat (length fs)
  end.
Proof.
  intros F. unfold within_limit in F. destruct (ko_dir o); induction F as [|[a p] fs (A & B & C) F IH]; cbn [map length fst snd] in *; rewrite ?sumZ_cons, ?Nat2Z.inj_succ; try (change (sumZ []) with 0; lia).
  - unfold fill_cost at 1, ceil_value. cbn [fst snd]. pose proof (Z.div_mod (- (p * a)) P18 ltac:(discriminate)) as X. pose proof (Z.mod_pos_bound (- (p * a)) P18 ltac:(reflexivity)). assert (p * a <= ko_price o * a) by nia. lia.
  - unfold fill_gain at 1, floor_value. cbn [fst snd]. pose proof (Z.div_mod (p * a) P18 ltac:(discriminate)) as X. pose proof (Z.mod_pos_bound (p * a) P18 ltac:(reflexivity)). assert (ko_price o * a <= p * a) by nia. lia.
Qed.
(** Over its whole life a buy order pays at most its limit price for what it received, a sell order gets at
    least its limit price for what it paid, up to less than one unit of the quote coin per fill. *)
Theorem C75_average_price : forall Q ph s i j o, reach (sane Q) (ph, s) -> get_order s i j = Some o ->
  exists fs, explained_by o fs /\ let paid := ko_offer o - ko_remaining o in let fills := Z.of_nat (length fs) in
  match ko_dir o with
  | Buy => ko_received o = ko_amt o - ko_open o /\ P18 * paid <= ko_price o * ko_received o + (P18 - 1) * fills
  | Sell => paid = ko_amt o - ko_open o /\ ko_price o * paid <= P18 * ko_received o + (P18 - 1) * fills
  end.
Proof.
  intros Q ph s i j o R G. destruct (C75_fills Q ph s i j o R G) as (fs & E). exists fs. split; [exact E|]. destruct E as (F & A & B & C). pose proof (fills_worth o fs F) as W. cbv zeta.
  destruct (ko_dir o).
  - assert (X : sumZ (map (fill_gain Buy) fs) = sumZ (map fst fs)) by reflexivity. rewrite X in C. split; [lia|]. rewrite B, C. replace (ko_offer o - (ko_offer o - sumZ (map (fill_cost Buy) fs))) with (sumZ (map (fill_cost Buy) fs)) by lia. exact W.
  - assert (X : sumZ (map (fill_cost Sell) fs) = sumZ (map fst fs)) by reflexivity. rewrite X in B. split; [lia|]. rewrite B, C. replace (ko_offer o - (ko_offer o - sumZ (map fst fs))) with (sumZ (map fst fs)) by lia. exact W.
Qed.
Print Assumptions C75_average_price.

(** Order 2 of user 2 (buy 140000 at one half) is filled in two batches: 100000, then 20000. *)
Definition two_fills : list action := trade1 ++ [AEnd; ABegin 15; AMsg (MLimitOrder 3 1 Sell (Coin 1) 20000 (Coin 2) half 20000 60); AEnd].
Example C75_example : reach (sane any_params) (after 1 two_fills) /\
  (match get_order (snd (after 1 (trade1 ++ [AEnd]))) 1 2, get_order (snd (after 1 two_fills)) 1 2 with
   | Some o, Some o' => (ko_received o =? 100000) && (ko_open o =? 40000) && (ko_offer o - ko_remaining o =? 50000) &&
                        (ko_received o' =? 120000) && (ko_open o' =? 20000) && (ko_offer o' - ko_remaining o' =? 60000)
   | _, _ => false end) = true.
Proof. split; [apply after_reach; reflexivity|]. vm_compute. reflexivity. Qed.
