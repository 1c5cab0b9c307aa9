(** The announcing handlers do what the handlers do, and what they say is true. *)
From Verif Require Import Base Dec TickModel OrderModel MatchModel PoolModel KeeperModel KeeperLib KeeperSpec KeeperSpec2 KeeperMicro KeeperBank KeeperSteps KeeperTrade KeeperInv KeeperHist KeeperBlock KeeperCancel KeeperCancelAll KeeperPlace MsgSpec KeeperMsgExact Props_Msgs PoolProofs RangeCreate AnnounceModel AnnounceSpec.

(** ** Forgetting the announcements *)
Definition forget {A} (r : option (state * A)) : option state := match r with Some (s, _) => Some s | None => None end.
Ltac dm := match goal with |- forget (match ?e with _ => _ end) = _ => destruct e; cbn [forget fst snd]; try reflexivity end.
Lemma tail_forget s u i pr kind ps dc cs : forget (create_pool_tail_a s u i pr kind ps dc cs) = create_pool_tail s u pr kind ps dc.
Proof. unfold create_pool_tail_a, create_pool_tail. cbv zeta. repeat dm. Qed.
Lemma pair_forget s u b q : forget (create_pair_a s u b q) = create_pair s u b q.
Proof. unfold create_pair_a, create_pair. cbv zeta. repeat dm. Qed.
Lemma pool_forget s u i cs : forget (create_pool_a s u i cs) = create_pool s u i cs.
Proof. unfold create_pool_a, create_pool. repeat dm. apply tail_forget. Qed.
Lemma rpool_forget s u i cs a b c : forget (create_rpool_a s u i cs a b c) = create_rpool s u i cs a b c.
Proof. unfold create_rpool_a, create_rpool. cbv zeta. repeat dm. apply tail_forget. Qed.
Lemma dep_forget s u i cs : forget (deposit_msg_a s u i cs) = deposit_msg s u i cs.
Proof. unfold deposit_msg_a, deposit_msg. repeat dm. Qed.
Lemma wd_forget s u i d x : forget (withdraw_msg_a s u i d x) = withdraw_msg s u i d x.
Proof. unfold withdraw_msg_a, withdraw_msg. repeat dm. Qed.
Lemma place_forget s typ u i d od offer dd price amt l : forget (place_order_a s typ u i d od offer dd price amt l) = place_order s typ u i d od offer dd price amt l.
Proof. unfold place_order_a, place_order. cbv zeta. repeat dm. Qed.
Lemma one_forget ids k s : forget (cancel_one_a ids k s) = cancel_one ids k s.
Proof. unfold cancel_one_a, cancel_one. cbv zeta. repeat dm. Qed.
Lemma each_forget ids l : forall s, forget (cancel_each_a ids l s) = for_each (cancel_one ids) l s.
Proof.
  induction l as [|k l IH]; intros s; [reflexivity|]. cbn [cancel_each_a for_each]. rewrite <- one_forget. destruct (cancel_one_a ids k s) as [[s1 l1]|]; cbn [forget fst snd]; [|reflexivity]. rewrite <- IH. destruct (cancel_each_a ids l s1) as [[s2 l2]|]; reflexivity.
Qed.
Lemma deliver_forget s m : forget (deliver_a s m) = deliver s m.
Proof.
  unfold deliver_a, deliver. destruct (validate_basic m); [|reflexivity]. destruct m; cbn [handle_a handle].
  - apply pair_forget.
  - apply pool_forget.
  - apply rpool_forget.
  - apply dep_forget.
  - apply wd_forget.
  - apply place_forget.
  - apply place_forget.
  - unfold mm_order_a, mm_order. cbv zeta. destruct (_ <=? _); [reflexivity|]. rewrite <- place_forget. destruct (place_order_a _ _ _ _ _ _ _ _ _ _ _) as [[s1 l1]|]; reflexivity.
  - unfold cancel_order_a. destruct (cancel_order s u i j); reflexivity.
  - unfold cancel_all_a, cancel_all. destruct (existsb _ ids); [reflexivity|]. rewrite <- each_forget. destruct (cancel_each_a _ _ _) as [[s1 l1]|]; reflexivity.
  - destruct (if valid_params p then Some (set_params s p) else None); reflexivity.
  - destruct (st_send _ _ _ _); reflexivity.
Qed.

(** ** What is said *)
Ltac nx := match goal with |- match ?e with _ => _ end = Some _ -> _ => destruct e eqn:?; try (intros X; discriminate X) end.
Lemma pair_said s u b q s' l : create_pair_a s u b q = Some (s', l) -> l = [APair u b q (st_last_pair s + 1) (PairEscrow (st_last_pair s + 1))].
Proof.
  unfold create_pair_a. cbv zeta. nx. destruct (st_send _ _ _ _) as [s1|] eqn:E; [|intros X; discriminate X]. intros H. injection H as _ <-. apply st_send_spec in E. destruct E as (bk & -> & _). reflexivity.
Qed.
Lemma tail_said s u i pr kind ps dc cs s' l : create_pool_tail_a s u i pr kind ps dc cs = Some (s', l) ->
  l = [APool (match kind with PBasic => false | PRanged _ _ => true end) u i cs (st_last_pool s + 1) (PoolReserve (st_last_pool s + 1)) (PoolCoin (st_last_pool s + 1)) (Z.max ps (pm_min_supply (st_params s)))].
Proof. unfold create_pool_tail_a. cbv zeta. repeat nx. intros H. injection H as _ <-. reflexivity. Qed.
Lemma pool_said s u i cs s' l : create_pool_a s u i cs = Some (s', l) -> exists minted, l = [APool false u i cs (st_last_pool s + 1) (PoolReserve (st_last_pool s + 1)) (PoolCoin (st_last_pool s + 1)) minted] /\
  exists pr ap, get_pair s i = Some pr /\ create_basic_pool (amount_of cs (pr_quote pr)) (amount_of cs (pr_base pr)) = Ok (Some ap) /\ minted = Z.max (p_ps ap) (pm_min_supply (st_params s)).
Proof.
  unfold create_pool_a. destruct (get_pair s i) as [pr|]; [|intros X; discriminate X]. do 3 nx.
  destruct (create_basic_pool _ _) as [[ap|]| |] eqn:E; cbn [of_res]; try (intros X; discriminate X). intros H. apply tail_said in H. eexists. split; [exact H|]. exists pr, ap. auto.
Qed.
Lemma rpool_said s u i cs a b c s' l : create_rpool_a s u i cs a b c = Some (s', l) -> exists minted, l = [APool true u i cs (st_last_pool s + 1) (PoolReserve (st_last_pool s + 1)) (PoolCoin (st_last_pool s + 1)) minted] /\
  exists pr ap, get_pair s i = Some pr /\ create_ranged_pool (amount_of cs (pr_quote pr)) (amount_of cs (pr_base pr)) a b c = Ok (Some ap) /\ minted = Z.max (p_ps ap) (pm_min_supply (st_params s)).
Proof.
  unfold create_rpool_a. cbv zeta. do 6 nx. destruct (get_pair s i) as [pr|]; [|intros X; discriminate X]. do 2 nx.
  destruct (create_ranged_pool _ _ _ _ _) as [[ap|]| |] eqn:E; cbn [of_res]; try (intros X; discriminate X). do 2 nx. intros H. apply tail_said in H. eexists. split; [exact H|]. exists pr, ap. auto.
Qed.
Lemma dep_said s u i cs s' l : deposit_msg_a s u i cs = Some (s', l) -> exists p, get_pool s i = Some p /\ l = [ADeposit u (pl_id p) cs (pl_last_dep p + 1)].
Proof. unfold deposit_msg_a. destruct (get_pool s i) as [p|]; [|intros X; discriminate X]. repeat nx. intros H. injection H as _ <-. eauto. Qed.
Lemma wd_said s u i d x s' l : withdraw_msg_a s u i d x = Some (s', l) -> exists p, get_pool s i = Some p /\ l = [AWithdraw u (pl_id p) d x (pl_last_wd p + 1)].
Proof. unfold withdraw_msg_a. destruct (get_pool s i) as [p|]; [|intros X; discriminate X]. repeat nx. intros H. injection H as _ <-. eauto. Qed.
Lemma place_said s typ u i d od offer dd price amt ls s' l : place_order_a s typ u i d od offer dd price amt ls = Some (s', l) ->
  exists pr o, get_pair s i = Some pr /\ get_order s' (pr_id pr) (pr_last_order pr + 1) = Some o /\ ko_offer o <= offer /\
    l = [AOrder (ko_type o) u i (ko_dir o) (ko_offer_denom o) (ko_offer o) (ko_demand_denom o) (ko_price o) (ko_amt o) (pr_last_order pr + 1) (ko_batch o) (ko_expire o) (ko_offer_denom o) (offer - ko_offer o)].
Proof.
  unfold place_order_a. cbv zeta. do 2 nx. destruct (get_pair s i) as [pr|]; [|intros X; discriminate X]. do 5 nx.
  match goal with |- (if offer <? ?x then _ else _) = _ -> _ => destruct (Z.ltb_spec offer x) as [|Le]; [intros X; discriminate X|] end. repeat nx. intros H. injection H as <- <-. exists pr.
  eexists. split; [reflexivity|]. split; [unfold get_order, oidx_add, put_order, put_pair; cbn [st_orders set_oidx set_orders ko_pair ko_id]; apply mget_mset_eq|]. cbn [ko_offer ko_type ko_dir ko_offer_denom ko_demand_denom ko_price ko_amt ko_batch ko_expire]. split; [exact Le|reflexivity].
Qed.

(** ** Cancelling: while messages are handled, an order that has ended was cancelled *)
Definition open_or_canceled (s : state) : Prop := forall k o, mget (st_orders s) k = Some o -> live o = true \/ ko_status o = OCanceled.
Lemma ooc_mic (Q : ctl) s s' : mic Q s s' -> stage_of Q = SMsg -> open_or_canceled s -> open_or_canceled s'.
Proof.
  intros M B H k o G. destruct (orders_mic _ _ _ M) as [E|[(_ & pr & q & _ & _ & _ & St & _ & _ & _ & E)|[(q & q' & _ & _ & _ & _ & _ & W & E)|(X & _)]]].
  - rewrite E in G. exact (H k o G).
  - rewrite E, mget_mset in G. destruct (key_eqb k _); [|exact (H k o G)]. injection G as <-. left. unfold live. rewrite St. reflexivity.
  - rewrite E, mget_mset in G. destruct (key_eqb k _); [|exact (H k o G)]. injection G as <-. right. apply W. exact B.
  - congruence.
Qed.
Lemma ooc_mics (Q : ctl) s s' : mics Q s s' -> stage_of Q = SMsg -> open_or_canceled s -> open_or_canceled s'.
Proof. intros M B. induction M as [s|s1 s2 s3 M1 M2 IH]; intros H; [exact H|]. apply IH. exact (ooc_mic Q _ _ M1 B H). Qed.
Lemma reach_ooc Q s : reach (sane Q) (InBlock, s) -> open_or_canceled s.
Proof. intros R. exact (proj2 (proj2 (reach_in_block Q s R))). Qed.

Definition picked (u : Z) (ids : list Z) (s : state) (k : key) : bool := match mget (st_orders s) k with Some o => wants u ids s o | None => false end.
Lemma each_said (Q : ctl) u ids l : stage_of Q = SMsg -> forall s s' r, inv Q s -> open_or_canceled s -> NoDup l -> (forall k, In k l -> exists o, mget (st_orders s) k = Some o /\ ko_owner o = User u) ->
  cancel_each_a ids l s = Some (s', r) -> r = map snd (filter (picked u ids s) l).
Proof.
  intros HS. induction l as [|k l IH]; intros s s' r I Oc Nd Hl H; [injection H as _ <-; reflexivity|]. cbn [cancel_each_a] in H.
  destruct (cancel_one_a ids k s) as [[s1 r1]|] eqn:E1; [|discriminate H]. cbn [fst snd] in H. destruct (cancel_each_a ids l s1) as [[s2 r2]|] eqn:E2; [|discriminate H]. cbn [fst snd] in H.
  assert (Er : r = r1 ++ r2) by congruence. clear H. subst r. apply NoDup_cons_iff in Nd. destruct Nd as [Nk Nd]. destruct (Hl k (or_introl eq_refl)) as (o & G & Ow).
  assert (F : cancel_one ids k s = Some s1) by (rewrite <- one_forget, E1; reflexivity).
  destruct (cancel_one_iff Q u ids k s o HS I G Ow) as [_ B]. destruct (B s1 F) as (I1 & P1 & O1 & _).
  assert (Oc1 : open_or_canceled s1) by exact (ooc_mics Q s s1 (cancel_one_mics Q ids k s s1 HS (v_str _ _ I) F) HS Oc).
  pose proof (IH s1 s2 r2 I1 Oc1 Nd) as Er. rewrite Er; [clear Er| |exact E2].
  - assert (Ef : filter (picked u ids s1) l = filter (picked u ids s) l).
    { apply filter_ext_in. intros k' Hk. unfold picked. rewrite O1 by (intros ->; contradiction). destruct (mget (st_orders s) k') as [o'|]; [|reflexivity]. unfold wants, get_pair. rewrite P1. reflexivity. }
    rewrite Ef. cbn [filter]. unfold picked at 2. rewrite G. pose proof (i_orders _ (v_str _ _ I) _ _ G) as (Ek & pr & Gp & _).
    unfold cancel_one_a in E1. rewrite Ek in E1. cbn [fst snd] in E1. unfold get_order in E1. rewrite <- Ek, G in E1. cbv zeta in E1. unfold wants. rewrite Ow, addr_eqb_refl. cbn [andb].
    destruct (match ids with [] => true | _ => false end || existsb (Z.eqb (ko_pair o)) ids); [|rewrite andb_false_r; injection E1 as _ <-; reflexivity]. rewrite andb_true_r.
    destruct (Oc k o G) as [L|C].
    + rewrite L. assert (NC : match ko_status o with OCanceled => true | _ => false end = false) by (unfold live in L; destruct (ko_status o); try reflexivity; discriminate L). rewrite NC in E1. cbn [negb andb] in *.
      destruct (ko_batch o <? _); [|injection E1 as _ <-; reflexivity]. destruct (finish_order s o OCanceled); [|discriminate E1]. injection E1 as _ <-. cbn [map]. rewrite Ek. reflexivity.
    + rewrite C in E1. cbn [negb andb] in E1. unfold live. rewrite C. cbn [o_terminal negb andb]. injection E1 as _ <-. reflexivity.
  - intros k' Hk. destruct (Hl k' (or_intror Hk)) as (o' & Go & Oo). exists o'. rewrite O1; [auto|]. intros ->. contradiction.
Qed.

(** ** Each announcement is true *)
Lemma told_split s m s' l : deliver_a s m = Some (s', l) -> deliver s m = Some s' /\ handle_a s m = Some (s', l).
Proof. intros H. split; [rewrite <- deliver_forget, H; reflexivity|]. unfold deliver_a in H. destruct (validate_basic m); [exact H|discriminate H]. Qed.

Lemma paid_to u to cs d : paid (User u) to cs to d = if addr_eqb to (User u) then 0 else amount_of cs d.
Proof. unfold paid, at_acc. rewrite addr_eqb_refl. destruct (addr_eqb to (User u)); lia. Qed.

Lemma pair_told Q s u b q s' l : reach (sane Q) (InBlock, s) -> deliver_a s (MCreatePair u b q) = Some (s', l) -> exists a, l = [a] /\ about (MCreatePair u b q) a /\ true_ann at_most_told s s' a.
Proof.
  intros R H. destruct (told_split _ _ _ _ H) as (D & Ha). cbn [handle_a] in Ha. apply pair_said in Ha. subst l. eexists. split; [reflexivity|]. split; [cbn; auto|].
  destruct (proj2 (C61_create_pair Q s u b q R) s' D) as (F & G & _). cbn [true_ann]. split; [exact F|]. split; [reflexivity|]. rewrite G, Z.eqb_refl. eexists. split; [reflexivity|]. auto.
Qed.
Lemma fee_to_reserve s u id cs d : pm_fee_collector (st_params s) <> PoolReserve id -> paid (User u) (pm_fee_collector (st_params s)) cs (PoolReserve id) d = 0.
Proof. intros N. unfold paid, at_acc. destruct (addr_eqb_spec (PoolReserve id) (pm_fee_collector (st_params s))) as [E|_]; [congruence|]. destruct (addr_eqb_spec (PoolReserve id) (User u)) as [E|_]; [discriminate E|]. lia. Qed.
Lemma created_told s s' u pr kind taken minted : pool_created s s' u pr kind taken minted -> let id := st_last_pool s + 1 in
  get_pool s id = None /\ get_pool s' id = Some (mkPool id (pr_id pr) kind (User u) 0 0 false) /\ supply (st_bank s') (PoolCoin id) = supply (st_bank s) (PoolCoin id) + minted /\
  (pm_fee_collector (st_params s) <> PoolReserve id -> received s s' (PoolReserve id) taken).
Proof.
  intros (F & G & B & Sp & _) id. fold id in F, G, B, Sp. split; [exact F|]. split; [rewrite G, Z.eqb_refl; reflexivity|]. split; [rewrite Sp; unfold of_denom; rewrite denom_eqb_refl; reflexivity|].
  intros N d. rewrite B, paid_to, fee_to_reserve by exact N. destruct (addr_eqb_spec (PoolReserve id) (User u)) as [E|_]; [discriminate E|]. unfold at_acc. destruct (addr_eqb_spec (PoolReserve id) (User u)) as [E|_]; [discriminate E|]. lia.
Qed.
Lemma pool_told Q s u i cs s' l : reach (sane Q) (InBlock, s) -> deliver_a s (MCreatePool u i cs) = Some (s', l) -> exists a, l = [a] /\ about (MCreatePool u i cs) a /\ true_ann at_most_told s s' a.
Proof.
  intros R H. destruct (told_split _ _ _ _ H) as (D & Ha). cbn [handle_a] in Ha. apply pool_said in Ha. destruct Ha as (minted & -> & pr & ap & Gp & Eb & Em). eexists. split; [reflexivity|]. split; [cbn; auto|].
  destruct (proj2 (C62_create_basic_pool Q s u i cs R) s' D) as (pr' & x & y & T & C). destruct T as (Gp' & Bc & X0 & _ & Y0 & _). assert (pr' = pr) by congruence. subst pr'.
  pose proof (reach_str Q _ R) as S. cbn [snd] in S. destruct (pair_id_of s i pr S Gp) as (Ei & N & _). destruct (both_coins_facts pr cs x y N Bc X0 Y0) as (_ & _ & _ & _ & _ & Ex & Ey).
  destruct (created_told _ _ _ _ _ _ _ C) as (A1 & A2 & A3 & A4). cbv zeta in *. cbn [true_ann]. split; [exact A1|]. split; [reflexivity|]. split; [reflexivity|]. split; [exists (mkPool (st_last_pool s + 1) (pr_id pr) PBasic (User u) 0 0 false); cbn; auto|]. split; [|exact A4].
  rewrite A3. f_equal. rewrite Em. f_equal. rewrite Ex, Ey in Eb. unfold create_basic_pool in Eb. destruct (_ || _); [discriminate Eb|]. apply rbind_ok in Eb. destruct Eb as (z & _ & Eb). destruct (_ <? _); [discriminate Eb|]. destruct (_ <? _); [discriminate Eb|]. injection Eb as <-. reflexivity.
Qed.
Lemma rpool_told Q s u i cs a b c s' l : reach (sane Q) (InBlock, s) -> deliver_a s (MCreateRangedPool u i cs a b c) = Some (s', l) -> exists n, l = [n] /\ about (MCreateRangedPool u i cs a b c) n /\ true_ann at_most_told s s' n.
Proof.
  intros R H. destruct (told_split _ _ _ _ H) as (D & Ha). cbn [handle_a] in Ha. apply rpool_said in Ha. destruct Ha as (minted & -> & pr & ap & Gp & Eb & Em). eexists. split; [reflexivity|]. split; [cbn; auto|].
  destruct (proj2 (C63_create_ranged_pool Q s u i cs a b c R) s' D) as (pr' & x & y & ax & ay & taken & T & Lx & Ly & _ & _ & _ & _ & _ & Am & C). destruct T as (Gp' & Bc & _ & _ & _ & _ & _ & _ & _ & (ap' & Ec & Ex & Ey) & Px & Py & _). assert (pr' = pr) by congruence. subst pr'.
  pose proof (reach_str Q _ R) as S. cbn [snd] in S. destruct (pair_id_of s i pr S Gp) as (Ei & N & _). destruct (pair_coins_facts pr cs x y N Bc) as (_ & _ & _ & _ & _ & _ & _ & _ & Al & Mx & My).
  destruct (created_told _ _ _ _ _ _ _ C) as (A1 & A2 & A3 & A4). cbv zeta in *. cbn [true_ann]. split; [exact A1|]. split; [reflexivity|]. split; [reflexivity|]. split; [exists (mkPool (st_last_pool s + 1) (pr_id pr) (PRanged a b) (User u) 0 0 false); cbn; auto|]. split.
  - rewrite A3. f_equal. rewrite Em. f_equal. rewrite Mx, My in Eb. assert (Ea : ap' = ap) by congruence. subst ap'. destruct (create_ranged_facts _ _ _ _ _ _ Eb) as (_ & _ & _ & _ & tx & ty & E). rewrite Ex, Ey in E. rewrite E. reflexivity.
  - intros Nf d. specialize (A4 Nf d). rewrite A4, Am, Al. unfold of_denom. destruct (denom_eqb d (pr_quote pr)), (denom_eqb d (pr_base pr)); lia.
Qed.
Lemma dep_told Q s u i cs s' l : reach (sane Q) (InBlock, s) -> deliver_a s (MDeposit u i cs) = Some (s', l) -> exists a, l = [a] /\ about (MDeposit u i cs) a /\ true_ann at_most_told s s' a.
Proof.
  intros R H. destruct (told_split _ _ _ _ H) as (D & Ha). cbn [handle_a] in Ha. apply dep_said in Ha. destruct Ha as (p & Gp & ->). pose proof (reach_str Q _ R) as S. cbn [snd] in S. destruct (pool_id_of s i p S Gp) as (Ei & _). rewrite Ei.
  eexists. split; [reflexivity|]. split; [cbn; auto|]. destruct (proj2 (C64_deposit_request Q s u i cs R) s' D) as (p' & pr & x & y & T & C). destruct T as (Gp' & _). assert (p' = p) by congruence. subst p'. destruct C as (F & G & _ & B & _). cbn [true_ann].
  split; [exact F|]. split; [rewrite G, !Z.eqb_refl; cbn [andb]; eexists; split; [reflexivity|]; cbn; auto 10|]. intros d. rewrite B, paid_to. reflexivity.
Qed.
Lemma wd_told Q s u i d x s' l : reach (sane Q) (InBlock, s) -> deliver_a s (MWithdraw u i d x) = Some (s', l) -> exists a, l = [a] /\ about (MWithdraw u i d x) a /\ true_ann at_most_told s s' a.
Proof.
  intros R H. destruct (told_split _ _ _ _ H) as (D & Ha). cbn [handle_a] in Ha. apply wd_said in Ha. destruct Ha as (p & Gp & ->). pose proof (reach_str Q _ R) as S. cbn [snd] in S. destruct (pool_id_of s i p S Gp) as (Ei & _). rewrite Ei.
  eexists. split; [reflexivity|]. split; [cbn; auto|]. destruct (C64_withdraw_request Q s u i d x R) as (A & E). destruct (E s' D) as (p' & Gp' & C). destruct (proj1 A) as (_ & _ & _ & Ed & _); [congruence|]. assert (p' = p) by congruence. subst p' d. destruct C as (F & G & _ & B & _). cbn [true_ann].
  split; [exact F|]. split; [rewrite G, !Z.eqb_refl; cbn [andb]; eexists; split; [reflexivity|]; cbn; auto 10|]. intros d. rewrite B, paid_to. cbn [addr_eqb amount_of]. unfold of_denom. destruct (denom_eqb d (PoolCoin i)); lia.
Qed.

(** Orders: from [order_placed]. *)
Lemma placed_told s s' s1 typ u pr i d od offer dd rp amt ls o : get_pair s i = Some pr -> pr_id pr = i -> get_order s' i (pr_last_order pr + 1) = Some o ->
  order_placed s s' pr (new_korder s typ u pr d rp amt ls) -> od = offered_denom pr d -> dd = demanded_denom pr d -> s1 = s' ->
  true_ann at_most_told s s1 (AOrder (ko_type o) u i (ko_dir o) (ko_offer_denom o) (ko_offer o) (ko_demand_denom o) (ko_price o) (ko_amt o) (pr_last_order pr + 1) (ko_batch o) (ko_expire o) (ko_offer_denom o) (Z.max 0 (offer - ko_offer o))) /\
  ko_type o = typ /\ ko_dir o = d /\ ko_offer_denom o = od /\ ko_demand_denom o = dd /\ ko_amt o = amt.
Proof.
  intros Gp Ei Go P -> -> ->. destruct P as (_ & _ & E1 & E2 & _ & Er & _ & _ & _ & _ & _ & B & _ & F & G & _). rewrite Ei in *. cbn [ko_id new_korder] in F, G. rewrite G, !Z.eqb_refl in Go. cbn [andb] in Go. injection Go as <-. split.
  - cbn [true_ann]. split; [exact F|]. split; [rewrite G, !Z.eqb_refl; cbn [andb]; eexists; split; [reflexivity|]; cbn; auto 20|]. cbn [ko_owner ko_offer_denom ko_offer new_korder] in *. split; [|split; [|split; [lia|reflexivity]]].
    + intros e. rewrite B. unfold at_acc. rewrite addr_eqb_refl. cbn [addr_eqb]. lia.
    + intros e. rewrite B. unfold at_acc. rewrite addr_eqb_refl. cbn [addr_eqb]. lia.
  - cbn [ko_type ko_dir ko_amt new_korder]. cbn [ko_dir new_korder] in E1, E2. auto.
Qed.
Lemma limit_told Q s u i d od offer dd price amt ls s' l : reach (sane Q) (InBlock, s) -> let m := MLimitOrder u i d od offer dd price amt ls in deliver_a s m = Some (s', l) -> exists a, l = [a] /\ about m a /\ true_ann at_most_told s s' a.
Proof.
  intros R m H. unfold m in *. clear m. destruct (told_split _ _ _ _ H) as (D & Ha). cbn [handle_a] in Ha. unfold deliver in D. destruct (validate_basic _) eqn:V; [|discriminate D]. cbn [handle] in D.
  destruct (limit_place Q s TLimit u i d od offer dd price amt ls s' R ltac:(discriminate) V D) as (pr & rp & T & P & _). destruct T as (Gp & E1 & E2 & _). cbn [with_mm] in P.
  apply place_said in Ha. destruct Ha as (pr' & o & Gp' & Go & Le & ->). assert (pr' = pr) by congruence. subst pr'. pose proof (reach_str Q _ R) as S. cbn [snd] in S. destruct (pair_id_of s i pr S Gp) as (Ei & _). rewrite Ei in Go.
  destruct (placed_told s s' s' TLimit u pr i d od offer dd rp amt ls o Gp Ei Go P E1 E2 eq_refl) as (A & B1 & B2 & B3 & B4 & B5). rewrite Z.max_r in A by lia.
  eexists. split; [reflexivity|]. split; [|exact A]. cbn [about]. repeat split; auto; lia.
Qed.
Lemma market_told Q s u i d od offer dd amt ls s' l : reach (sane Q) (InBlock, s) -> let m := MMarketOrder u i d od offer dd amt ls in deliver_a s m = Some (s', l) -> exists a, l = [a] /\ about m a /\ true_ann at_most_told s s' a.
Proof.
  intros R m H. unfold m in *. clear m. destruct (told_split _ _ _ _ H) as (D & Ha). cbn [handle_a] in Ha.
  destruct (market_place Q s u i d od offer dd amt ls s' R D) as (pr & last & target & rp & T & P). destruct T as (Gp & E1 & E2 & _).
  apply place_said in Ha. destruct Ha as (pr' & o & Gp' & Go & Le & ->). assert (pr' = pr) by congruence. subst pr'. pose proof (reach_str Q _ R) as S. cbn [snd] in S. destruct (pair_id_of s i pr S Gp) as (Ei & _). rewrite Ei in Go.
  destruct (placed_told s s' s' TMarket u pr i d od offer dd rp amt ls o Gp Ei Go P E1 E2 eq_refl) as (A & B1 & B2 & B3 & B4 & B5). rewrite Z.max_r in A by lia.
  eexists. split; [reflexivity|]. split; [|exact A]. cbn [about]. repeat split; auto; lia.
Qed.
Lemma mm_told Q s u i d od offer dd price amt ls s' l : reach (sane Q) (InBlock, s) -> let m := MMMOrder u i d od offer dd price amt ls in deliver_a s m = Some (s', l) -> exists a, l = [a] /\ about m a /\ true_ann at_most_told s s' a.
Proof.
  intros R m H. unfold m in *. clear m. destruct (told_split _ _ _ _ H) as (D & Ha). cbn [handle_a] in Ha. unfold deliver in D. destruct (validate_basic _) eqn:V; [|discriminate D]. cbn [handle] in D.
  unfold mm_order_a in Ha. unfold mm_order in D. cbv zeta in *. destruct (_ <=? _); [discriminate D|]. destruct (place_order_a s TMM u i d od offer dd (Some price) amt ls) as [[s1 l1]|] eqn:Ep; [|discriminate Ha]. cbn [fst snd] in Ha.
  assert (El : l1 = l) by congruence. subst l1. assert (Es : s' = set_mm_count s1 (User u) i (st_mm s (User u) i + 1)) by congruence. clear Ha.
  destruct (place_order s TMM u i d od offer dd (Some price) amt ls) as [s2|] eqn:Eq; [|discriminate D]. clear D. assert (s2 = s1) by (rewrite <- place_forget, Ep in Eq; injection Eq as ->; reflexivity). subst s2.
  destruct (limit_place Q s TMM u i d od offer dd price amt ls s1 R ltac:(discriminate) V Eq) as (pr & rp & T & P & _). destruct T as (Gp & E1 & E2 & _). cbn [with_mm] in P. rewrite <- Es in P.
  apply place_said in Ep. destruct Ep as (pr' & o & Gp' & Go & Le & ->). assert (pr' = pr) by congruence. subst pr'. pose proof (reach_str Q _ R) as S. cbn [snd] in S. destruct (pair_id_of s i pr S Gp) as (Ei & _). rewrite Ei in Go.
  assert (Go' : get_order s' i (pr_last_order pr + 1) = Some o) by (rewrite Es; exact Go).
  destruct (placed_told s s' s' TMM u pr i d od offer dd rp amt ls o Gp Ei Go' P E1 E2 eq_refl) as (A & B1 & B2 & B3 & B4 & B5). rewrite Z.max_r in A by lia.
  eexists. split; [reflexivity|]. split; [|exact A]. cbn [about]. repeat split; auto; lia.
Qed.
Lemma live_not_canceled o : live o = true -> ko_status o <> OCanceled.
Proof. unfold live. intros L E. rewrite E in L. discriminate L. Qed.
Lemma cancel_told Q s u i j s' l : reach (sane Q) (InBlock, s) -> deliver_a s (MCancelOrder u i j) = Some (s', l) -> exists a, l = [a] /\ about (MCancelOrder u i j) a /\ true_ann at_most_told s s' a.
Proof.
  intros R H. destruct (told_split _ _ _ _ H) as (D & Ha). cbn [handle_a] in Ha. unfold cancel_order_a in Ha. destruct (cancel_order s u i j); [|discriminate Ha]. assert (El : l = [ACancel u i j]) by congruence. subst l. clear Ha.
  eexists. split; [reflexivity|]. split; [cbn; auto|]. destruct (cancel_exact Q s u i j s' R D) as (o & G & Ow & L & _ & (_ & C & _)). destruct (order_facts Q _ i j o R G) as (E1 & E2 & _). cbn [true_ann]. split; [|exists o; auto].
  exists o, (ko_with_status o OCanceled). cbn [fst snd]. split; [exact G|]. split; [exact (live_not_canceled o L)|]. split; [|reflexivity]. rewrite C, E1, E2, !Z.eqb_refl. reflexivity.
Qed.
Lemma cancel_all_told Q s u ids s' l : reach (sane Q) (InBlock, s) -> deliver_a s (MCancelAllOrders u ids) = Some (s', l) -> exists a, l = [a] /\ about (MCancelAllOrders u ids) a /\ true_ann at_most_told s s' a.
Proof.
  intros R H. destruct (told_split _ _ _ _ H) as (D & Ha). cbn [handle_a] in Ha. unfold cancel_all_a in Ha. destruct (existsb _ ids); [discriminate Ha|]. destruct (cancel_each_a _ _ _) as [[s1 r]|] eqn:E; [|discriminate Ha]. cbn [fst snd] in Ha.
  assert (El : l = [ACancelAll u ids r]) by congruence. subst l. clear Ha. eexists. split; [reflexivity|]. split; [cbn; auto|].
  pose proof (reach_okp Q _ R) as I. cbn [snd] in I. pose proof (v_str _ _ I) as S.
  assert (Hl : forall k, In k (map fst (st_oidx s (User u))) <-> exists o, mget (st_orders s) k = Some o /\ ko_owner o = User u).
  { intros k. rewrite <- (i_oidx _ S). rewrite (mget_iff _ _ _ (i_oidx_sorted _ S (User u))). rewrite in_map_iff. split; [intros ([k' []] & <- & Hk); exact Hk|intros Hk; exists (k, tt); auto]. }
  pose proof (msorted_NoDup _ (i_oidx_sorted _ S (User u))) as Nd. destruct (cancel_all_exact Q s u ids s' R D) as (A & _).
  pose proof (each_said (mkCtl (sane Q) SMsg) u ids _ eq_refl s s1 r I (reach_ooc Q s R) Nd (fun k => proj1 (Hl k)) E) as Er. cbn [true_ann]. exists (filter (picked u ids s) (map fst (st_oidx s (User u)))). split; [exact Er|]. split; [apply NoDup_filter; exact Nd|].
  assert (Pk : forall k, In k (filter (picked u ids s) (map fst (st_oidx s (User u)))) <-> exists o, mget (st_orders s) k = Some o /\ wants u ids s o = true).
  { intros k. rewrite filter_In, Hl. unfold picked. split.
    - intros ((o & G & Ow) & W). rewrite G in W. eauto.
    - intros (o & G & W). split; [|rewrite G; exact W]. exists o. split; [exact G|]. unfold wants in W. rewrite !andb_true_iff in W. destruct W as (((W & _) & _) & _). destruct (addr_eqb_spec (User u) (ko_owner o)); [auto|discriminate W]. }
  split.
  - intros [i j]. rewrite Pk. unfold got_canceled. cbn [fst snd]. split.
    + intros (o & G & W). exists o, (ko_with_status o OCanceled). split; [exact G|]. assert (L : live o = true) by (unfold wants in W; rewrite !andb_true_iff in W; tauto). split; [exact (live_not_canceled o L)|]. split; [|reflexivity]. rewrite A. unfold get_order. rewrite G, W. reflexivity.
    + intros (o & o' & G & N & G' & C). exists o. split; [exact G|]. rewrite A, G in G'. destruct (wants u ids s o); [reflexivity|]. congruence.
  - intros [i j] Hk. apply Pk in Hk. destruct Hk as (o & G & W). cbn [fst snd]. apply (wants_spec Q s u ids o i j R G) in W. destruct W as (Ow & _ & _ & W). split; [exact W|]. exists o. auto.
Qed.
Theorem all_told Q s m s' l : reach (sane Q) (InBlock, s) -> deliver_a s m = Some (s', l) ->
  (quiet m /\ l = []) \/ exists a, l = [a] /\ about m a /\ true_ann at_most_told s s' a.
Proof.
  intros R H. destruct m; try (right; first [eapply pair_told; eassumption|eapply pool_told; eassumption|eapply rpool_told; eassumption|eapply dep_told; eassumption|eapply wd_told; eassumption|eapply limit_told; eassumption|eapply market_told; eassumption|eapply mm_told; eassumption|eapply cancel_told; eassumption|eapply cancel_all_told; eassumption]);
  left; (split; [exact Logic.I|]); destruct (told_split _ _ _ _ H) as (_ & Ha); cbn [handle_a] in Ha; match type of Ha with match ?e with _ => _ end = _ => destruct e; [|discriminate Ha] end; congruence.
Qed.
