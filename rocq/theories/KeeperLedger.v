(** A batch pays users exactly what their orders and requests return. *)
From Verif Require Import Base Dec DecProofs TickModel OrderModel MatchModel MatchSpec MatchProofs MatchTop PoolModel PoolProofs KeeperModel KeeperLib KeeperSpec LedgerSpec KeeperMicro KeeperBank KeeperSteps KeeperReqs KeeperOrders KeeperBulk KeeperTrade.
From Coq Require Import Permutation.

Definition pot (s : state) (u : Z) (d : denom) : Z := bal (st_bank s) (User u) d - returned s (User u) d.
Definition oret (u : Z) (d : denom) (o : korder) : Z := at_acc (User u) (ko_owner o) (order_return d o).
Definition dret (u : Z) (d : denom) (r : dreq) : Z := at_acc (User u) (dr_owner r) (dep_return d r).
Definition wret (u : Z) (d : denom) (r : wreq) : Z := at_acc (User u) (wr_owner r) (wd_return d r).

Lemma pot_eq s u d : pot s u d = bal (st_bank s) (User u) d - msum (oret u d) (st_orders s) - msum (dret u d) (st_deps s) - msum (wret u d) (st_wds s).
Proof. unfold pot, returned. change (order_sum s _) with (msum (oret u d) (st_orders s)). change (dep_sum s _) with (msum (dret u d) (st_deps s)). change (wd_sum s _) with (msum (wret u d) (st_wds s)). lia. Qed.

Lemma pot_put s o old u d : msorted (st_orders s) -> get_order s (ko_pair o) (ko_id o) = Some old ->
  pot (put_order s o) u d = pot s u d - oret u d o + oret u d old.
Proof. intros S G. rewrite !pot_eq. cbn [st_bank st_orders st_deps st_wds put_order set_orders]. rewrite (msum_mset _ _ _ _ S). unfold get_order in G. rewrite G. lia. Qed.
Lemma pot_bank s b u d : pot (set_bank s b) u d = pot s u d + bal b (User u) d - bal (st_bank s) (User u) d.
Proof. rewrite !pot_eq. cbn [st_bank st_orders st_deps st_wds set_bank]. lia. Qed.
Lemma pot_put_dep s r old u d : msorted (st_deps s) -> mget (st_deps s) (dr_pool r, dr_id r) = Some old ->
  pot (put_dep s r) u d = pot s u d - dret u d r + dret u d old.
Proof. intros S G. rewrite !pot_eq. cbn [st_bank st_orders st_deps st_wds put_dep set_deps]. rewrite (msum_mset _ _ _ _ S). rewrite G. lia. Qed.
Lemma pot_put_wd s r old u d : msorted (st_wds s) -> mget (st_wds s) (wr_pool r, wr_id r) = Some old ->
  pot (put_wd s r) u d = pot s u d - wret u d r + wret u d old.
Proof. intros S G. rewrite !pot_eq. cbn [st_bank st_orders st_deps st_wds put_wd set_wds]. rewrite (msum_mset _ _ _ _ S). rewrite G. lia. Qed.

(** Ending an order pays exactly the refund. *)
Lemma pot_finish s o st s' : str s -> get_order s (ko_pair o) (ko_id o) = Some o -> live o = true -> o_terminal st = true ->
  finish_order s o st = Some s' -> forall u d, pot s' u d = pot s u d.
Proof.
  intros S G L T H u d. destruct (finish_order_spec _ _ _ _ H L) as (b & Hb & ->).
  destruct (i_orders _ S _ _ G) as (_ & pr & _ & Ok). destruct Ok as (_ & _ & _ & _ & _ & (v & V) & _ & _ & R & _).
  assert (E : pot (put_order (set_bank s b) (ko_with_status o st)) u d = pot s u d).
  { rewrite (pot_put (set_bank s b) (ko_with_status o st) o u d (i_orders_sorted _ S) G), pot_bank.
    unfold oret, order_return, live. cbn [ko_owner ko_with_status ko_demand_denom ko_received ko_offer_denom ko_remaining ko_status]. rewrite T. cbn [negb].
    unfold live in L. rewrite L.
    assert (X : bal b (User u) d = bal (st_bank s) (User u) d + at_acc (User u) (ko_owner o) (of_denom d (ko_offer_denom o) (ko_remaining o))).
    { destruct (Z.ltb_spec 0 (ko_remaining o)).
      - destruct (send_spec _ _ _ _ _ Hb) as (_ & (M & _) & _). rewrite M. unfold at_acc, of_denom. change (addr_eqb (User u) (PairEscrow (ko_pair o))) with false. cbn [amount_of]. cbv iota. destruct (denom_eqb d (ko_offer_denom o)), (addr_eqb (User u) (ko_owner o)); lia.
      - subst b. unfold at_acc, of_denom. destruct (denom_eqb d (ko_offer_denom o)), (addr_eqb (User u) (ko_owner o)); lia. }
    rewrite X. unfold at_acc. destruct (addr_eqb _ _); lia. }
  cbn zeta. destruct (ko_type o); exact E.
Qed.

(** Outside of trading the batch only pays what is returned. *)
Theorem pot_mic (Q : ctl) s s' u d : mic Q s s' -> inv Q s -> stage_of Q = SReq -> pot s' u d = pot s u d.
Proof.
  intros M I T. pose proof (v_str _ _ I) as S.
  destruct M as [? ? ? ? ? X|? ? ? ? ? ? X|? ? ? ? ? ? ? X|? ? ? ? X|? ? ? X|? ? ? ? X|? ? ? ? ? ? ? X|p Gp Bt|? ? ? ? ? ? ? ? ? ? ? ? X|? ? ? ? ? ? ? ? X|? ? ? ? ? ? ? ? ? ? ? ? ? ? ? X
    |o rem recv open st G L B1 B2 B3 B4 St Un|o st s' G L Tm F En|? ? ? ? X|r s1 G P Sd X|r acc pc b' G P V D X|r s1 G P Sd X|r w b' G P V D X|X]; try (rewrite T in X; discriminate X).
  - reflexivity.
  - destruct Un as [X|(_ & -> & -> & ->)]; [rewrite T in X; discriminate X|].
    rewrite (pot_put s (ko_with_status (ko_with_fill o (ko_remaining o) (ko_received o) (ko_open o)) st) o u d (i_orders_sorted _ S) G).
    assert (E : oret u d (ko_with_status (ko_with_fill o (ko_remaining o) (ko_received o) (ko_open o)) st) = oret u d o).
    { unfold oret, order_return. rewrite L. unfold live. cbn. destruct St as [->|[-> _]]; reflexivity. }
    rewrite E. lia.
  - exact (pot_finish s o st s' S G L Tm F u d).
  - apply st_send_spec in Sd. destruct Sd as (b & -> & Es). destruct (send_spec _ _ _ _ _ Es) as (_ & (Mb & _) & _).
    rewrite (pot_put_dep (set_bank s b) (dr_with r [] (dr_minted r) RFailed) r u d (i_deps_sorted _ S) G), pot_bank, Mb. unfold dret, dep_return. rewrite P. cbn [dr_owner dr_with dr_status dr_coins].
    unfold at_acc. change (addr_eqb (User u) GlobalEscrow) with false. cbv iota. destruct (addr_eqb _ _); lia.
  - rewrite (pot_put_dep (set_bank s b') (dr_with r acc pc RSucceeded) r u d (i_deps_sorted _ S) G), pot_bank. destruct D as (_ & _ & _ & Mb & _). rewrite Mb. unfold dret, dep_return. rewrite P.
    cbn [dr_owner dr_with dr_status dr_coins dr_accepted dr_minted dr_pool]. unfold at_acc. change (addr_eqb (User u) GlobalEscrow) with false. change (addr_eqb (User u) (PoolReserve (dr_pool r))) with false. cbv iota. destruct (addr_eqb _ (dr_owner r)); lia.
  - apply st_send_spec in Sd. destruct Sd as (b & -> & Es). destruct (send_spec _ _ _ _ _ Es) as (_ & (Mb & _) & _).
    rewrite (pot_put_wd (set_bank s b) (wr_with r (wr_withdrawn r) RFailed) r u d (i_wds_sorted _ S) G), pot_bank, Mb. unfold wret, wd_return. rewrite P. cbn [wr_owner wr_with wr_status wr_amt wr_denom amount_of].
    unfold at_acc, of_denom. change (addr_eqb (User u) GlobalEscrow) with false. cbv iota. destruct (denom_eqb d (wr_denom r)), (addr_eqb (User u) (wr_owner r)); lia.
  - rewrite (pot_put_wd (set_bank s b') (wr_with r w RSucceeded) r u d (i_wds_sorted _ S) G), pot_bank. destruct D as (_ & _ & Mb & _). rewrite Mb. unfold wret, wd_return. rewrite P.
    cbn [wr_owner wr_with wr_status wr_withdrawn]. unfold at_acc. change (addr_eqb (User u) GlobalEscrow) with false. change (addr_eqb (User u) (PoolReserve (wr_pool r))) with false. cbv iota. destruct (addr_eqb _ (wr_owner r)); lia.
Qed.
Lemma pot_mics (Q : ctl) s s' u d : mics Q s s' -> inv Q s -> stage_of Q = SReq -> pot s' u d = pot s u d.
Proof. intros M. induction M as [|s1 s2 s3 M1 M2 IH]; intros I T; [reflexivity|]. rewrite IH; [exact (pot_mic Q _ _ u d M1 I T)|exact (inv_mic Q _ _ M1 I)|assumption]. Qed.

(** Recording a fill lowers the potential by what the order is about to receive. *)
Lemma pot_fill (Q : ctl) s ko o s1 : inv Q s -> stage_of Q = STrade -> get_order s (ko_pair ko) (ko_id ko) = Some ko -> live ko = true ->
  0 <= o_paid o <= ko_remaining ko -> 0 <= o_recv o -> 0 <= o_amt o - o_open o <= ko_open ko -> (ko_dir ko = Sell -> o_paid o = o_amt o - o_open o) ->
  (let ko' := ko_with_fill ko (ko_remaining ko - o_paid o) (ko_received ko + o_recv o) (ko_open ko - (o_amt o - o_open o)) in
   if ko_open ko' =? 0 then finish_order s ko' OCompleted else Some (put_order s (ko_with_status ko' OPartiallyMatched))) = Some s1 ->
  forall u d, pot s1 u d = pot s u d - at_acc (User u) (ko_owner ko) (of_denom d (ko_demand_denom ko) (o_recv o)).
Proof.
  intros I T G L Pd Rv Op Sl H u d. cbn zeta in H. set (ko' := ko_with_fill _ _ _ _) in H.
  assert (Tk : o_terminal (ko_status ko') = false) by (unfold live in L; apply negb_true_iff in L; exact L).
  pose proof (v_str _ _ I) as S.
  set (sp := put_order s (ko_with_status ko' OPartiallyMatched)) in *.
  assert (M : mic Q s sp).
  { apply mic_upd; auto; try lia. intros D. specialize (Sl D). lia. }
  assert (SL : pot sp u d = pot s u d - at_acc (User u) (ko_owner ko) (of_denom d (ko_demand_denom ko) (o_recv o))).
  { unfold sp. rewrite (pot_put s (ko_with_status ko' OPartiallyMatched) ko u d (i_orders_sorted _ S) G). unfold oret, order_return. rewrite L.
    change (live (ko_with_status ko' OPartiallyMatched)) with true. cbn [ko_owner ko_with_status ko_demand_denom ko_received ko' ko_with_fill]. unfold at_acc, of_denom.
    destruct (denom_eqb d (ko_demand_denom ko)), (addr_eqb (User u) (ko_owner ko)); lia. }
  change (ko_open ko') with (ko_open ko - (o_amt o - o_open o)) in H. destruct (_ =? 0).
  - rewrite <- (finish_put s ko' OPartiallyMatched OCompleted Tk eq_refl) in H. fold sp in H.
    rewrite (pot_finish sp (ko_with_status ko' OPartiallyMatched) OCompleted s1 (v_str _ _ (inv_mic Q _ _ M I))); [exact SL|apply mget_mset_eq|reflexivity|reflexivity|exact H].
  - injection H as <-. exact SL.
Qed.

Lemma pot_apply (Q : ctl) pr os : forall s q seen s' q', inv Q s -> stage_of Q = STrade -> get_pair s (pr_id pr) = Some pr -> q_valid q ->
  Forall (filled_entry s (pr_id pr)) os -> NoDup (user_ids os) -> apply_orders pr os s q seen = Some (s', q') ->
  forall u d, pot s' u d + q_in q' (User u) d = pot s u d + q_in q (User u) d.
Proof.
  induction os as [|o os IH]; intros s q seen s' q' I T Gp V F NU H u0 d; cbn [apply_orders] in H.
  - injection H as <- <-. reflexivity.
  - inversion F as [|? ? F1 F2]; subst. unfold user_ids in NU. cbn [flat_map] in NU. fold (user_ids os) in NU.
    destruct (is_matched o) eqn:Mt.
    2:{ assert (NU' : NoDup (user_ids os)) by (unfold uid in NU; destruct (o_kind o); [exact NU|inversion NU; assumption|exact NU]).
        exact (IH _ _ _ _ _ I T Gp V F2 NU' H u0 d). }
    destruct (F1 Mt) as (P0 & R0 & F1'). destruct (o_kind o) as [|id|id] eqn:K; [discriminate H| |].
    + destruct F1' as (ko & G & L & Dr & Pm & Op & Sl). rewrite G in H.
      destruct (Z.ltb_spec (ko_remaining ko) (o_paid o)) as [|_]; [lia|].
      match type of H with (match ?e with Some x => _ | None => None end) = _ => destruct e as [s1|] eqn:Es; [|discriminate H] end.
      destruct (get_order_id _ _ _ _ (v_str _ _ I) G) as [Ei Eid].
      assert (Gk : get_order s (ko_pair ko) (ko_id ko) = Some ko) by (rewrite Ei, Eid; exact G).
      assert (Slk : ko_dir ko = Sell -> o_paid o = o_amt o - o_open o) by (rewrite Dr; exact Sl).
      destruct (fill_step Q s ko o s1 I T Gk L ltac:(lia) R0 Op Slk Es) as (M1 & S1 & G1 & O1 & _).
      pose proof (pot_fill Q s ko o s1 I T Gk L ltac:(lia) R0 Op Slk Es u0 d) as PF.
      destruct (new_coins [(ko_demand_denom ko, o_recv o)]) as [cs|] eqn:En; [|discriminate H]. destruct (new_coins_one _ _ _ En) as (_ & Vc & Am & _).
      destruct (bulk_queue_spec q (PairEscrow (pr_id pr)) (ko_owner ko) cs V Vc) as (Vq & Qo & Qi).
      unfold uid in NU. rewrite K in NU. cbn [app] in NU. apply NoDup_cons_iff in NU. destruct NU as [NU1 NU2].
      assert (Gp1 : get_pair s1 (pr_id pr) = Some pr) by (unfold get_pair; destruct S1 as (-> & _); exact Gp).
      assert (Fe : Forall (filled_entry s1 (pr_id pr)) os).
      { eapply Forall_impl; [|apply Forall_and with (1 := F2); apply Forall_forall; intros x Hx; exact Hx]. intros x [Ex Hx] Mx. specialize (Ex Mx).
        destruct Ex as (X1 & X2 & X3). split; [assumption|]. split; [assumption|]. destruct (o_kind x) as [|id'|] eqn:Kx; auto. destruct X3 as (kx & Y1 & Y2). exists kx. split; [|assumption].
        unfold get_order in *. rewrite O1; [assumption|]. rewrite Ei, Eid. intros E0. injection E0 as E0. apply NU1. rewrite <- E0. unfold user_ids. apply in_flat_map. exists x. split; [assumption|].
        unfold uid. rewrite Kx. left. reflexivity. }
      rewrite (IH _ _ _ _ _ (inv_mics Q _ _ M1 I) T Gp1 Vq Fe NU2 H u0 d). rewrite PF, Qi, Am. unfold of_denom. lia.
    + destruct (new_coins [(demand_denom_of pr (o_dir o), o_recv o)]) as [cs|] eqn:En; [|discriminate H]. destruct (new_coins_one _ _ _ En) as (_ & Vc & Am & _).
      destruct (existsb _ seen); [discriminate H|].
      destruct (bulk_queue_spec q (PairEscrow (pr_id pr)) (PoolReserve id) cs V Vc) as (Vq & Qo & Qi).
      assert (NU' : NoDup (user_ids os)) by (unfold uid in NU; rewrite K in NU; exact NU).
      rewrite (IH _ _ _ _ _ I T Gp Vq F2 NU' H u0 d), Qi. unfold at_acc. cbn [addr_eqb]. lia.
Qed.

Lemma q_zero (P : addr -> addr -> Prop) q a d (g : addr * addr * coins -> addr) : (forall e, P (fst (fst e)) (snd (fst e)) -> g e <> a) ->
  Forall (fun e => P (fst (fst e)) (snd (fst e))) q -> sumZ (map (fun e => at_acc a (g e) (amount_of (snd e) d)) q) = 0.
Proof.
  intros N F. induction F as [|e q Pe F IH]; [reflexivity|]. cbn [map]. rewrite sumZ_cons, IH. unfold at_acc. destruct (addr_eqb_spec a (g e)) as [E|]; [|reflexivity]. exfalso. exact (N e Pe (eq_sym E)).
Qed.

Lemma pot_match (Q : ctl) s pr os qd s' : inv Q s -> stage_of Q = STrade -> get_pair s (pr_id pr) = Some pr ->
  Forall (filled_entry s (pr_id pr)) os -> NoDup (user_ids os) -> apply_match s pr os qd = Some s' ->
  forall u d, pot s' u d = pot s u d + at_acc (User u) (pm_dust_collector (st_params s)) (of_denom d (pr_quote pr) qd).
Proof.
  intros I T Gp F NU H u d. unfold apply_match in H.
  destruct (queue_pool_payments pr os []) as [q1|] eqn:E1; [|discriminate H].
  destruct (queue_pool_spec pr os [] q1 (Forall_nil _) E1) as (V1 & Fp & _). specialize (Fp (Forall_nil _)).
  destruct (bulk_run (st_bank s) q1) as [b1|] eqn:E2; [|discriminate H]. destruct (bulk_run_spec _ _ _ E2) as (_ & B1 & _).
  assert (M1 : mics Q s (set_bank s b1)).
  { apply (bulk_mics Q q1 T); [|assumption]. eapply Forall_impl; [|exact Fp]. intros e [(id & X) _]. rewrite X. exact Logic.I. }
  destruct (apply_orders pr os (set_bank s b1) [] []) as [[s2 q2]|] eqn:E3; [|discriminate H]. cbn [fst snd] in H.
  destruct (apply_orders_spec Q pr os (set_bank s b1) [] [] s2 q2 (inv_mics Q _ _ M1 I) T Gp (Forall_nil _) F NU E3) as (M2 & R2 & V2 & Fe & _).
  specialize (Fe (Forall_nil _)).
  pose proof (pot_apply Q pr os (set_bank s b1) [] [] s2 q2 (inv_mics Q _ _ M1 I) T Gp (Forall_nil _) F NU E3 u d) as PA.
  destruct (new_coins [(pr_quote pr, qd)]) as [dust|] eqn:E4; [|discriminate H]. destruct (new_coins_one _ _ _ E4) as (Q0 & Vd & Ad & _).
  destruct (bulk_queue_spec q2 (PairEscrow (pr_id pr)) (pm_dust_collector (st_params s)) dust V2 Vd) as (V3 & Qo3 & Qi3).
  set (q3 := bulk_queue q2 (PairEscrow (pr_id pr)) (pm_dust_collector (st_params s)) dust) in *.
  destruct (bulk_run (st_bank s2) q3) as [b2|] eqn:E5; [|discriminate H]. injection H as <-. destruct (bulk_run_spec _ _ _ E5) as (_ & B2 & _).
  assert (O1 : q_out q1 (User u) d = 0).
  { apply (q_zero (fun f t => (exists id, f = PoolReserve id) /\ t = PairEscrow (pr_id pr))); [|exact Fp]. intros e [(id & X) _]. rewrite X. discriminate. }
  assert (I1 : q_in q1 (User u) d = 0).
  { apply (q_zero (fun f t => (exists id, f = PoolReserve id) /\ t = PairEscrow (pr_id pr)) q1 _ d (fun e => snd (fst e))); [|exact Fp]. intros e [_ X]. rewrite X. discriminate. }
  assert (O3 : q_out q3 (User u) d = 0).
  { rewrite Qo3. unfold at_acc. cbn [addr_eqb]. rewrite Z.add_0_r. apply (q_zero (fun f t => f = PairEscrow (pr_id pr))); [|exact Fe]. intros e X. rewrite X. discriminate. }
  rewrite pot_bank in *. rewrite B2, O3, Qi3, Ad. rewrite B1, O1, I1 in PA. fold (of_denom d (pr_quote pr) qd). change (q_in [] (User u) d) with 0 in PA. lia.
Qed.

(** One pair's matching. *)
Lemma pot_matching (Q : ctl) iter pr s s' : is_perm_iter iter -> inv Q s -> (forall p, Q p -> sane_ratio p) -> stage_of Q = STrade -> get_pair s (pr_id pr) = Some pr ->
  execute_matching iter pr s = Some s' -> forall u d, exists x, 0 <= x /\ pot s' u d = pot s u d + at_acc (User u) (pm_dust_collector (st_params s)) x.
Proof.
  intros Hi I HQ T Gp H u d. destruct (execute_matching_spec Q iter pr s s' Hi I HQ T Gp H) as (ss & price & hu & ps & MB & MS & _ & _ & Ed & Ew & Ep & _ & _ & _ & R).
  pose proof (MS SReq (or_intror eq_refl)) as MR. pose proof (pot_mics _ _ _ u d MR (proj1 (inv_ctl Q SReq s) I) eq_refl) as P1.
  pose proof (inv_mics _ _ _ (MS STrade (or_introl eq_refl)) (proj1 (inv_ctl Q STrade s) I)) as Is.
  destruct R as [(_ & _ & Eo & Eb)|(po & h & h2 & mp & qd & _ & _ & _ & MD)].
  - exists 0. split; [lia|]. rewrite <- P1, !pot_eq, Eo, Eb, Ed, Ew.
    destruct (mb_rest _ _ _ _ _ MB) as (_ & _ & _ & -> & ->). unfold at_acc. destruct (addr_eqb _ _); lia.
  - destruct (md_applied _ _ _ _ _ _ _ _ _ MD) as (Fo & NUo & s3 & E3 & ->).
    destruct (mb_rest _ _ _ _ _ MB) as (Y1 & Y2 & _).
    assert (Gss : get_pair ss (pr_id pr) = Some pr) by (unfold get_pair; rewrite Y1; exact Gp).
    pose proof (pot_match (mkCtl (allowed Q) STrade) ss pr _ qd s3 Is eq_refl Gss Fo NUo E3 u d) as PM.
    destruct (apply_match_spec (mkCtl (allowed Q) STrade) ss pr _ qd s3 Is eq_refl Gss Fo NUo E3) as (_ & _ & Q0 & _).
    exists (of_denom d (pr_quote pr) qd). split; [unfold of_denom; destruct (denom_eqb _ _); lia|]. rewrite <- Y2, <- P1, <- PM. reflexivity.
Qed.

(** Matching keeps the parameters. *)
Lemma pot_match_stage (Q : ctl) iter l : is_perm_iter iter -> (forall p, Q p -> sane_ratio p) -> stage_of Q = STrade -> forall s s', inv Q s ->
  NoDup (map fst l) -> (forall k pr, In (k, pr) l -> mget (st_pairs s) k = Some pr) ->
  for_each (fun kv : key * pair => execute_matching iter (snd kv)) l s = Some s' ->
  st_params s' = st_params s /\ forall u d, exists x, 0 <= x /\ pot s' u d = pot s u d + at_acc (User u) (pm_dust_collector (st_params s)) x.
Proof.
  intros Hi HQ T. induction l as [|[k pr] l IH]; intros s s' I N C H; cbn [for_each] in H.
  - injection H as <-. split; [reflexivity|]. intros u d. exists 0. split; [lia|]. unfold at_acc. destruct (addr_eqb _ _); lia.
  - cbn [snd] in H. destruct (execute_matching iter pr s) as [s1|] eqn:E; [|discriminate H].
    pose proof (C k pr (or_introl eq_refl)) as G. pose proof (pairs_key Q _ _ _ I G) as ->.
    destruct (execute_matching_spec Q iter pr s s1 Hi I HQ T G E) as (ss & price & hu & ps & _ & _ & M & P & _ & _ & Ep & _).
    cbn [map] in N. apply NoDup_cons_iff in N. destruct N as [N1 N2].
    destruct (IH s1 s' (inv_mics Q _ _ M I) N2) as (Ep2 & IH2); [|exact H|].
    { intros k' pr' X. rewrite P. rewrite mget_mset_neq; [apply C; right; exact X|]. intros E0. apply N1. cbn [fst]. rewrite <- E0. exact (in_map fst _ _ X). }
    split; [congruence|]. intros u d. destruct (pot_matching Q iter pr s s1 Hi I HQ T G E u d) as (x & X0 & X1). destruct (IH2 u d) as (y & Y0 & Y1).
    exists (x + y). split; [lia|]. rewrite Y1, X1, Ep. unfold at_acc. destruct (addr_eqb _ _); lia.
Qed.

Theorem pot_end_block (A : params -> Prop) iter s s' : is_perm_iter iter -> okp A s -> (forall p, A p -> sane_ratio p) ->
  end_block iter s = Some s' -> forall u d, exists x, 0 <= x /\ pot s' u d = pot s u d + at_acc (User u) (pm_dust_collector (st_params s)) x.
Proof.
  intros Hi I HQ H u d. unfold end_block in H. destruct (_ =? 0); [|injection H as <-; exists 0; split; [lia|unfold at_acc; destruct (addr_eqb _ _); lia]]. unfold execute_requests in H.
  apply (okp_st A STrade) in I.
  destruct (for_each _ (st_pairs s) s) as [s1|] eqn:E1; [|discriminate H]. pose proof (match_stage (mkCtl A STrade) iter s s1 Hi I HQ eq_refl E1) as M1. pose proof (inv_mics _ _ _ M1 I) as I1.
  destruct (pot_match_stage (mkCtl A STrade) iter (st_pairs s) Hi HQ eq_refl s s1 I) as (_ & P1); [apply msorted_NoDup, (i_pairs_sorted _ (v_str _ _ I))|intros k v X; apply snap_current; [apply (i_pairs_sorted _ (v_str _ _ I))|assumption]|exact E1|].
  destruct (P1 u d) as (x & X0 & X1). exists x. split; [exact X0|]. rewrite <- X1.
  apply (inv_ctl _ SReq) in I1. cbn [allowed] in I1.
  destruct (for_each _ (st_orders s1) s1) as [s2|] eqn:E2; [|discriminate H]. pose proof (expire_stage (mkCtl A SReq) s1 s2 (or_intror eq_refl) I1 E2) as M2. pose proof (inv_mics _ _ _ M2 I1) as I2.
  destruct (for_each _ (st_deps s2) s2) as [s3|] eqn:E3; [|discriminate H]. pose proof (dep_stage (mkCtl A SReq) s2 s3 eq_refl I2 E3) as M3. pose proof (inv_mics _ _ _ M3 I2) as I3.
  pose proof (wd_stage (mkCtl A SReq) s3 s' eq_refl I3 H) as M4.
  exact (pot_mics _ _ _ u d (mics_trans _ _ _ _ M2 (mics_trans _ _ _ _ M3 M4)) I1 eq_refl).
Qed.

(** The batch never takes coins from a user. *)
Lemma user_gains_mic (Q : ctl) s s' u d : mic Q s s' -> inv Q s -> batching Q -> bal (st_bank s) (User u) d <= bal (st_bank s') (User u) d.
Proof.
  intros M I B. pose proof (v_str _ _ I) as S. assert (Nm : stage_of Q <> SMsg) by (destruct B; congruence). assert (Nb : stage_of Q <> SBegin) by (destruct B; congruence).
  assert (Snd : forall x s1 f t cs, st_send x f t cs = Some s1 -> (forall v, f <> User v) -> bal (st_bank x) (User u) d <= bal (st_bank s1) (User u) d).
  { intros x s1 f t cs H N. apply st_send_spec in H. destruct H as (b & -> & H). destruct (send_spec _ _ _ _ _ H) as (V & (Mv & _) & _). cbn [st_bank set_bank]. rewrite Mv.
    destruct (addr_eqb_spec (User u) f) as [E|]; [exfalso; exact (N u (eq_sym E))|]. pose proof (valid_amount_nonneg cs d V). destruct (addr_eqb (User u) t); lia. }
  destruct M; try congruence; try (cbn; lia).
  - eapply Snd; [eassumption|]. intros v ->. assumption.
  - destruct (finish_order_spec _ _ _ _ H2 H0) as (b & Hb & ->). destruct (i_orders _ S _ _ H) as (_ & pr & _ & Ok). destruct Ok as (_ & _ & _ & _ & _ & (v & V) & _ & _ & Rr & _).
    assert (X : bal (st_bank s) (User u) d <= bal b (User u) d).
    { destruct (0 <? ko_remaining o); [|subst b; lia]. destruct (send_spec _ _ _ _ _ Hb) as (Va & (Mv & _) & _). rewrite Mv. change (addr_eqb (User u) (PairEscrow (ko_pair o))) with false. cbv iota.
      pose proof (valid_amount_nonneg _ d Va). destruct (addr_eqb _ _); lia. }
    destruct (ko_type o); exact X.
  - match goal with H : st_send s GlobalEscrow _ _ = Some _ |- _ => exact (Snd _ _ _ _ _ H ltac:(intros v; discriminate)) end.
  - destruct H2 as (A & P & _ & Mv & _). cbn [st_bank put_dep set_deps set_bank]. rewrite Mv. unfold at_acc. change (addr_eqb (User u) GlobalEscrow) with false. change (addr_eqb (User u) (PoolReserve (dr_pool r))) with false. cbv iota.
    specialize (A d). unfold of_denom. destruct (addr_eqb _ _); [destruct (denom_eqb _ _)|]; lia.
  - match goal with H : st_send s GlobalEscrow _ _ = Some _ |- _ => exact (Snd _ _ _ _ _ H ltac:(intros v; discriminate)) end.
  - destruct H2 as (A & P & Mv & _). cbn [st_bank put_wd set_wds set_bank]. rewrite Mv. unfold at_acc. change (addr_eqb (User u) GlobalEscrow) with false. change (addr_eqb (User u) (PoolReserve (wr_pool r))) with false. cbv iota.
    specialize (A d). destruct (addr_eqb _ _); lia.
Qed.
Lemma user_gains_mics (Q : ctl) s s' u d : mics Q s s' -> inv Q s -> batching Q -> bal (st_bank s) (User u) d <= bal (st_bank s') (User u) d.
Proof. intros M. induction M as [|s1 s2 s3 M1 M2 IH]; intros I B; [lia|]. pose proof (user_gains_mic Q _ _ u d M1 I B). pose proof (IH (inv_mic Q _ _ M1 I) B). lia. Qed.
