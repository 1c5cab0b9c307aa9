(** What matching pays into and out of the reserve of a pool. *)
From Verif Require Import Base Dec DecProofs TickModel OrderModel MatchModel MatchSpec MatchProofs MatchTop OrderProofs PoolModel PoolProofs KeeperModel KeeperLib KeeperSpec KeeperSpec2 LedgerSpec KeeperMicro KeeperBank KeeperSteps KeeperReqs KeeperOrders KeeperBulk KeeperTrade KeeperInv KeeperHist KeeperSettle KeeperBlock KeeperExpire KeeperPairBatch IsoSpec KeeperIso KeeperIso2 KeeperHalt ProductSpec PoolLedgerSpec.
From Coq Require Import Permutation.

Section Ledger.
Variable n : Z.
Definition theirs (o : order) : bool := match o_kind o with KPool j => j =? n | _ => false end.
Let P : Z -> bool := Z.eqb n.
Notation wst := (wst (-1) P False).
Notation mkt := (mkt (-1) P).

Lemma sum_filter {A} (g : A -> bool) (f : A -> Z) l : sumZ (map f (filter g l)) = sumZ (map (fun x => if g x then f x else 0) l).
Proof. induction l as [|x l IH]; [reflexivity|]. cbn [filter map]. rewrite sumZ_cons, <- IH. destruct (g x); [reflexivity|lia]. Qed.
Lemma mkt_reserve s s' : mkt s s' -> forall d, bal (st_bank s') (PoolReserve n) d = bal (st_bank s) (PoolReserve n) d.
Proof. intros M d. symmetry. apply (ag_bal _ _ _ _ (m_bank _ _ _ _ M)). right. exists n. split; [reflexivity|apply Z.eqb_refl]. Qed.

(** ** Applying a match result *)
Lemma apply_orders_reserve pr os : 0 <= pr_id pr -> forall s q seen r, wst s -> q_valid q -> apply_orders pr os s q seen = Some r ->
  wst (fst r) /\ q_valid (snd r) /\ (forall d, bal (st_bank (fst r)) (PoolReserve n) d = bal (st_bank s) (PoolReserve n) d) /\
  (forall d, q_in (snd r) (PoolReserve n) d = q_in q (PoolReserve n) d + recv_in pr (filter theirs os) d) /\
  (forall d, q_out (snd r) (PoolReserve n) d = q_out q (PoolReserve n) d) /\
  (forall o, In o os -> is_matched o = true -> theirs o = true -> forall dr, In (n, dr) seen -> o_dir o = dr) /\
  (forall o1 o2, In o1 os -> In o2 os -> is_matched o1 = true -> is_matched o2 = true -> theirs o1 = true -> theirs o2 = true -> o_dir o1 = o_dir o2).
Proof.
  intros Hpr. induction os as [|o os IH]; intros s q seen r W V H; cbn [apply_orders] in H.
  - injection H as <-. cbn [fst snd filter]. unfold recv_in. cbn. split; [exact W|]. split; [exact V|]. split; [reflexivity|]. split; [intros; lia|]. split; [reflexivity|]. split; [intros ? []|intros ? ? []].
  - assert (Skip : (is_matched o = true -> theirs o = false) -> forall s1 q1, wst s1 -> q_valid q1 -> apply_orders pr os s1 q1 seen = Some r ->
      (forall d, bal (st_bank s1) (PoolReserve n) d = bal (st_bank s) (PoolReserve n) d) -> (forall d, q_in q1 (PoolReserve n) d = q_in q (PoolReserve n) d) -> (forall d, q_out q1 (PoolReserve n) d = q_out q (PoolReserve n) d) ->
      wst (fst r) /\ q_valid (snd r) /\ (forall d, bal (st_bank (fst r)) (PoolReserve n) d = bal (st_bank s) (PoolReserve n) d) /\
      (forall d, q_in (snd r) (PoolReserve n) d = q_in q (PoolReserve n) d + recv_in pr (filter theirs (o :: os)) d) /\
      (forall d, q_out (snd r) (PoolReserve n) d = q_out q (PoolReserve n) d) /\
      (forall o', In o' (o :: os) -> is_matched o' = true -> theirs o' = true -> forall dr, In (n, dr) seen -> o_dir o' = dr) /\
      (forall o1 o2, In o1 (o :: os) -> In o2 (o :: os) -> is_matched o1 = true -> is_matched o2 = true -> theirs o1 = true -> theirs o2 = true -> o_dir o1 = o_dir o2)).
    { intros Sk s1 q1 W1 V1 H1 Eb Ei Eo. destruct (IH s1 q1 seen r W1 V1 H1) as (A1 & A2 & A3 & A4 & A5 & A6 & A7). split; [exact A1|]. split; [exact A2|]. split; [intros d; rewrite A3; apply Eb|]. split; [|split; [intros d; rewrite A5; apply Eo|split]].
      - intros d. rewrite A4, Ei. f_equal. cbn [filter]. destruct (theirs o) eqn:T; [|reflexivity]. unfold recv_in. cbn [map]. rewrite sumZ_cons. destruct (is_matched o); [specialize (Sk eq_refl); discriminate Sk|reflexivity].
      - intros o' [<-|X] M T; [rewrite (Sk M) in T; discriminate T|exact (A6 o' X M T)].
      - intros o1 o2 [<-|X1] [<-|X2] M1 M2 T1 T2; try (rewrite Sk in T1 by assumption; discriminate T1); try (rewrite Sk in T2 by assumption; discriminate T2). exact (A7 o1 o2 X1 X2 M1 M2 T1 T2). }
    destruct (is_matched o) eqn:Mt; [|apply (Skip ltac:(discriminate) s q W V H); reflexivity].
    destruct (o_kind o) as [|id|id] eqn:K; [discriminate H| |].
    + assert (Tf : theirs o = false) by (unfold theirs; rewrite K; reflexivity).
      destruct (get_order s (pr_id pr) id) as [ko|] eqn:G; [|discriminate H]. destruct (w_order _ _ _ _ W _ _ _ G) as (Ep & _ & u & Ou). destruct (_ <? _); [discriminate H|]. cbv zeta in H.
      match type of H with match ?e with _ => _ end = _ => destruct e as [s1|] eqn:E; [|discriminate H] end.
      destruct (new_coins [(ko_demand_denom ko, o_recv o)]) as [cs|] eqn:En; [|discriminate H]. destruct (new_coins_one _ _ _ En) as (_ & Vc & _ & _).
      assert (X : mkt s s1 /\ wst s1).
      { match type of E with (if ?e then _ else _) = _ => destruct e end.
        - split; [refine (finish_fr (-1) P _ _ _ _ u _ _ E); [cbn; lia|exact Ou]|apply (finish_w (-1) P False _ _ _ _ u W) in E; [exact E|exact Ou]].
        - injection E as <-. split; [apply fr_put_order; cbn; lia|apply (w_put_order (-1) P False _ _ u W); exact Ou]. }
      destruct X as [X1 X2]. destruct (bulk_queue_spec q (PairEscrow (pr_id pr)) (ko_owner ko) cs V Vc) as (A & B & C). rewrite Ou in *.
      apply (Skip (fun _ => Tf) s1 _ X2 A H); [exact (mkt_reserve _ _ X1)|intros d; rewrite C; unfold at_acc; cbn; lia|intros d; rewrite B; unfold at_acc; cbn; lia].
    + destruct (new_coins [(demand_denom_of pr (o_dir o), o_recv o)]) as [cs|] eqn:En; [|discriminate H]. destruct (new_coins_one _ _ _ En) as (_ & Vc & Am & _). cbv zeta in H.
      destruct (existsb _ _) eqn:Ex; [discriminate H|]. destruct (bulk_queue_spec q (PairEscrow (pr_id pr)) (PoolReserve id) cs V Vc) as (A & B & C).
      destruct (IH s _ _ r W A H) as (A1 & A2 & A3 & A4 & A5 & A6 & A7). split; [exact A1|]. split; [exact A2|]. split; [exact A3|]. split; [|split; [|split]].
      * intros d. rewrite A4, C. unfold at_acc. cbn [addr_eqb filter]. unfold theirs at 2. rewrite K, (Z.eqb_sym n id). destruct (id =? n); [|lia]. unfold recv_in. cbn [map]. rewrite sumZ_cons, Mt, Am. unfold of_denom. lia.
      * intros d. rewrite A5, B. unfold at_acc. cbn [addr_eqb]. lia.
      * intros o' [<-|X] M T dr D; [|exact (A6 o' X M T dr (or_intror D))]. unfold theirs in T. rewrite K in T. apply Z.eqb_eq in T. subst id.
        destruct (dir_eqb dr (o_dir o)) eqn:De; [destruct dr, (o_dir o); try reflexivity; discriminate De|]. exfalso. assert (Y : existsb (fun x : Z * dir => (fst x =? n) && negb (dir_eqb (snd x) (o_dir o))) seen = true).
        { apply existsb_exists. exists (n, dr). cbn [fst snd]. rewrite Z.eqb_refl, De. auto. } congruence.
      * assert (L : forall o', In o' os -> is_matched o' = true -> theirs o = true -> theirs o' = true -> o_dir o' = o_dir o).
        { intros o' X M T T'. apply (A6 o' X M T'). left. unfold theirs in T. rewrite K in T. apply Z.eqb_eq in T. subst id. reflexivity. }
        intros o1 o2 [<-|X1] [<-|X2] M1 M2 T1 T2; [reflexivity|symmetry; apply L; assumption|apply L; assumption|exact (A7 o1 o2 X1 X2 M1 M2 T1 T2)].
Qed.

Lemma apply_match_reserve s pr os qd s' : 0 <= pr_id pr -> wst s -> apply_match s pr os qd = Some s' ->
  (forall d, bal (st_bank s') (PoolReserve n) d = bal (st_bank s) (PoolReserve n) d - paid_in pr (filter theirs os) d + recv_in pr (filter theirs os) d) /\
  (forall o1 o2, In o1 os -> In o2 os -> is_matched o1 = true -> is_matched o2 = true -> theirs o1 = true -> theirs o2 = true -> o_dir o1 = o_dir o2).
Proof.
  intros Hp W H. unfold apply_match in H. destruct (queue_pool_payments pr os []) as [q1|] eqn:Q1; [|discriminate H]. destruct (bulk_run (st_bank s) q1) as [b1|] eqn:B1; [|discriminate H].
  destruct (apply_orders pr os (set_bank s b1) [] []) as [r|] eqn:E; [|discriminate H].
  destruct (apply_orders_reserve pr os Hp _ _ _ _ (w_set_bank (-1) P False s b1 W) (Forall_nil _) E) as (W2 & V2 & A3 & A4 & A5 & _ & A7).
  destruct (new_coins [(pr_quote pr, qd)]) as [dust|] eqn:Nd; [|discriminate H]. destruct (new_coins_one _ _ _ Nd) as (_ & Vc & _). cbv zeta in H. destruct (bulk_run (st_bank (fst r)) _) as [b2|] eqn:B2; [|discriminate H]. injection H as <-.
  split; [|exact A7]. intros d. cbn [st_bank set_bank].
  destruct (queue_pool_spec pr os [] q1 (Forall_nil _) Q1) as (V1 & Fp & _ & _ & O1). destruct (bulk_run_spec _ _ _ B1) as (_ & C1 & _). destruct (bulk_run_spec _ _ _ B2) as (_ & C2 & _).
  destruct (bulk_queue_spec (snd r) (PairEscrow (pr_id pr)) (pm_dust_collector (st_params s)) dust V2 Vc) as (_ & D1 & D2).
  assert (I1 : q_in q1 (PoolReserve n) d = 0).
  { specialize (Fp (Forall_nil _)). unfold q_in. clear -Fp. induction Fp as [|e q [_ X] F IH]; [reflexivity|]. cbn [map]. rewrite sumZ_cons, IH, X. unfold at_acc. cbn. reflexivity. }
  assert (Nd2 : at_acc (PoolReserve n) (pm_dust_collector (st_params s)) (amount_of dust d) = 0).
  { pose proof (w_dust _ _ _ _ W) as X. unfold at_acc. destruct (addr_eqb_spec (PoolReserve n) (pm_dust_collector (st_params s))) as [Y|]; [|reflexivity]. exfalso. apply X. right. exists n. split; [symmetry; exact Y|apply Z.eqb_refl]. }
  rewrite C2, D1, D2, A3, A4, A5, Nd2. cbn [st_bank set_bank]. rewrite C1, O1, I1. fold theirs. unfold at_acc, q_in, q_out, theirs. cbn. lia.
Qed.

(** ** The orders of the pool among all orders *)
Lemma filter_orders_other k d l : k <> n -> filter theirs (map (pool_order k d) l) = [].
Proof. intros N. induction l as [|x l IH]; [reflexivity|]. cbn [map filter]. unfold theirs at 1. cbn [pool_order new_order o_kind]. destruct (Z.eqb_spec k n); [contradiction|exact IH]. Qed.
Lemma filter_orders_own d l : filter theirs (map (pool_order n d) l) = map (pool_order n d) l.
Proof. induction l as [|x l IH]; [reflexivity|]. cbn [map filter]. unfold theirs at 1. cbn [pool_order new_order o_kind]. rewrite Z.eqb_refl, IH. reflexivity. Qed.
Lemma filter_users s i l : Forall (entry s i) l -> filter theirs l = [].
Proof. induction 1 as [|o l (_ & id & ko & K & _) _ IH]; [reflexivity|]. cbn [filter]. unfold theirs at 1. rewrite K. exact IH. Qed.

Lemma around_none lo hi prec ps : ~ In n (map fst ps) -> forall po, orders_around lo hi prec ps = Some po -> filter theirs po = [].
Proof.
  induction ps as [|[k p] ps IH]; intros Ni po H; cbn [orders_around] in H; [injection H as <-; reflexivity|].
  destruct (pool_buy_orders p lo hi prec) as [bs|]; [|discriminate H]. destruct (pool_sell_orders p lo hi prec) as [ss|]; [|discriminate H]. destruct (orders_around lo hi prec ps) as [r|]; [|discriminate H]. injection H as <-.
  cbn [map fst In] in Ni. rewrite !filter_app, !filter_orders_other, (IH ltac:(tauto) r eq_refl) by tauto. reflexivity.
Qed.
Lemma around_own lo hi prec ap ps : NoDup (map fst ps) -> In (n, ap) ps -> forall po, orders_around lo hi prec ps = Some po ->
  exists bs ss, pool_buy_orders ap lo hi prec = Some bs /\ pool_sell_orders ap lo hi prec = Some ss /\ filter theirs po = map (pool_order n Buy) bs ++ map (pool_order n Sell) ss.
Proof.
  induction ps as [|[k p] ps IH]; intros Nd Hin po H; [destruct Hin|]. cbn [orders_around] in H. cbn [map fst] in Nd. apply NoDup_cons_iff in Nd. destruct Nd as [Nk Nd].
  destruct (pool_buy_orders p lo hi prec) as [bs|] eqn:Eb; [|discriminate H]. destruct (pool_sell_orders p lo hi prec) as [ss|] eqn:Es; [|discriminate H]. destruct (orders_around lo hi prec ps) as [r|] eqn:Er; [|discriminate H]. injection H as <-.
  destruct Hin as [E|Hin].
  - injection E as -> ->. exists bs, ss. split; [exact Eb|]. split; [exact Es|]. rewrite !filter_app, !filter_orders_own, (around_none lo hi prec ps Nk r Er), app_nil_r. reflexivity.
  - assert (N : k <> n) by (intros ->; apply Nk; exact (in_map fst _ _ Hin)). destruct (IH Nd Hin r eq_refl) as (b & c & B1 & B2 & B3). exists b, c. split; [exact B1|]. split; [exact B2|].
    rewrite !filter_app, !(filter_orders_other k) by exact N. exact B3.
Qed.
Lemma orders_at_eq mp ip : orders_at mp ip = map (pool_order (fst ip) Buy) (at_price mp (buy_amount_over (snd ip) mp)) ++ map (pool_order (fst ip) Sell) (at_price mp (sell_amount_under (snd ip) mp)).
Proof. unfold orders_at, at_price, ok_or0. destruct (buy_amount_over (snd ip) mp) as [b| |], (sell_amount_under (snd ip) mp) as [c| |]; cbn; repeat match goal with |- context [if ?e then _ else _] => destruct e end; reflexivity. Qed.
Lemma at_none mp ps : ~ In n (map fst ps) -> filter theirs (flat_map (orders_at mp) ps) = [].
Proof.
  induction ps as [|[k p] ps IH]; intros Ni; [reflexivity|]. cbn [flat_map map fst In] in *. rewrite orders_at_eq. cbn [fst snd]. rewrite !filter_app, !filter_orders_other, IH by tauto. reflexivity.
Qed.
Lemma at_own mp ap ps : NoDup (map fst ps) -> In (n, ap) ps ->
  filter theirs (flat_map (orders_at mp) ps) = map (pool_order n Buy) (at_price mp (buy_amount_over ap mp)) ++ map (pool_order n Sell) (at_price mp (sell_amount_under ap mp)).
Proof.
  induction ps as [|[k p] ps IH]; intros Nd Hin; [destruct Hin|]. cbn [flat_map map fst] in *. apply NoDup_cons_iff in Nd. destruct Nd as [Nk Nd]. rewrite orders_at_eq. cbn [fst snd]. destruct Hin as [E|Hin].
  - injection E as -> ->. rewrite !filter_app, !filter_orders_own, at_none by exact Nk. apply app_nil_r.
  - assert (N : k <> n) by (intros ->; apply Nk; exact (in_map fst _ _ Hin)). rewrite !filter_app, !(filter_orders_other k) by exact N. exact (IH Nd Hin).
Qed.
(** What [kmatch] submits for the pool. *)
Lemma kmatch_none iter prm hu ps last h1 h2 mp qd : filter theirs hu = [] -> ~ In n (map fst ps) -> kmatch iter prm hu ps last = Some (h1, Some (h2, mp, qd)) -> filter theirs h1 = [].
Proof.
  intros Fu Ni H. unfold kmatch in H. cbv zeta in H. destruct last as [l|].
  - destruct (price_limits _ _ _) as [[lo hi]| |]; [|discriminate H|discriminate H]. cbn [of_res fst snd] in H. destruct (orders_around lo hi _ ps) as [po|] eqn:Ep; [|discriminate H].
    destruct (match_book _ _ _ _) as [[[[x y] z] m]|]; [|discriminate H]. destruct m; [|discriminate H]. injection H as <- _ _ _. rewrite filter_app, Fu. exact (around_none _ _ _ _ Ni _ Ep).
  - destruct (_ && _); [discriminate H|]. destruct (find_match_price _ _) as [m|]; [|discriminate H]. destruct (match_single _ _ _ _) as [[[x y]|]|]; [|discriminate H|discriminate H]. injection H as <- _ _ _. rewrite filter_app, Fu. exact (at_none _ _ Ni).
Qed.
Lemma kmatch_own iter prm hu ps ap last h1 h2 mp qd : filter theirs hu = [] -> NoDup (map fst ps) -> In (n, ap) ps -> kmatch iter prm hu ps last = Some (h1, Some (h2, mp, qd)) ->
  exists bs ss, offers ap last prm mp bs ss /\ filter theirs h1 = map (pool_order n Buy) bs ++ map (pool_order n Sell) ss.
Proof.
  intros Fu Nd Hin H. unfold kmatch in H. cbv zeta in H. destruct last as [l|].
  - destruct (price_limits _ _ _) as [[lo hi]| |] eqn:El; [|discriminate H|discriminate H]. cbn [of_res fst snd] in H. destruct (orders_around lo hi _ ps) as [po|] eqn:Ep; [|discriminate H].
    destruct (match_book _ _ _ _) as [[[[x y] z] m]|]; [|discriminate H]. destruct m; [|discriminate H]. injection H as <- _ _ _. rewrite filter_app, Fu.
    destruct (around_own _ _ _ ap _ Nd Hin _ Ep) as (bs & ss & A & B & C). exists bs, ss. split; [exists lo, hi; auto|exact C].
  - destruct (_ && _); [discriminate H|]. destruct (find_match_price _ _) as [m|]; [|discriminate H]. destruct (match_single _ _ _ _) as [[[x y]|]|]; [|discriminate H|discriminate H]. injection H as <- _ -> _. rewrite filter_app, Fu.
    eexists _, _. split; [split; reflexivity|]. exact (at_own _ _ _ Nd Hin).
Qed.

(** ** Fills *)
Definition became (o o' : order) : Prop := wf_order o' /\ exists fs, filled_by o fs o'.
Lemma became_theirs o o' : became o o' -> theirs o' = theirs o.
Proof. intros (_ & fs & _ & _ & _ & _ & _ & _ & K & _). unfold theirs. rewrite K. reflexivity. Qed.
Lemma became_filter h h2 : Forall2 became h h2 -> Forall2 became (filter theirs h) (filter theirs h2).
Proof. induction 1 as [|o o' h h2 R _ IH]; [constructor|]. cbn [filter]. rewrite (became_theirs _ _ R). destruct (theirs o); [constructor; assumption|exact IH]. Qed.
Lemma became_heap (h h2 : heap) : length h2 = length h -> Forall wf_order h2 -> (forall k, (k < length h)%nat -> exists fs, filled_by (get h k) fs (get h2 k)) -> Forall2 became h h2.
Proof.
  revert h2. induction h as [|o h IH]; intros [|o2 h2] L W F; try discriminate L; [constructor|]. inversion W; subst. constructor; [split; [assumption|exact (F 0%nat ltac:(cbn; lia))]|].
  apply IH; [injection L as L; exact L|assumption|]. intros k Hk. exact (F (Datatypes.S k) ltac:(cbn; lia)).
Qed.
Lemma fresh_unfilled o fs o' : fresh_order o -> filled_by o fs o' -> is_matched o' = false -> fs = [].
Proof.
  intros (_ & _ & Fo & _) (Ff & _ & _ & Ea & _ & _ & _ & Eo & _) M. destruct fs as [|f fs]; [reflexivity|]. exfalso. unfold is_matched in M. apply Z.ltb_ge in M. inversion Ff as [|? ? [X _] Y]; subst. cbn [map] in Eo. rewrite sumZ_cons in Eo.
  assert (0 <= sumZ (map fst fs)). { apply sumZ_nonneg. intros x Hx. apply in_map_iff in Hx. destruct Hx as (y & <- & Hy). rewrite Forall_forall in Y. destruct (Y y Hy). lia. } lia.
Qed.
Definition sum_paid (l : list order) : Z := sumZ (map o_paid l).
Definition sum_recv (l : list order) : Z := sumZ (map o_recv l).
Lemma buys_filled bs : Forall fresh_order (map (pool_order n Buy) bs) -> forall l, Forall2 became (map (pool_order n Buy) bs) l ->
  exists fb, bought bs fb /\ Forall (fun o => o_dir o = Buy) l /\ sum_paid l = cost_all fb /\ sum_recv l = base_all fb /\ (Forall (fun o => is_matched o = false) l -> fills_all fb = 0).
Proof.
  induction bs as [|[p a] bs IH]; intros Fa l H; cbn [map] in Fa, H; inversion H as [|o o' ? l' R H']; subst.
  - exists []. split; [constructor|]. split; [constructor|]. split; [reflexivity|]. split; [reflexivity|]. reflexivity.
  - inversion Fa as [|? ? Fr Fa']; subst. destruct (IH Fa' _ H') as (fb & B1 & B2 & B3 & B4 & B5). destruct R as (W & fs & Fd). destruct (proj1 (conj Fr Logic.I)) as (Pp & Pa & _). pose proof Fd as Fd0.
    destruct Fd as (Ff & Ed & Epr & Ea & Eof & _ & _ & Eo & Epd & Erv). destruct W as (_ & W1 & W2 & _). cbn [pool_order new_order o_dir o_price o_amt o_offer o_open o_paid o_recv fst snd] in *. rewrite (buy_offer p a) in Eof by lia.
    exists (fs :: fb). split; [constructor; [|exact B1]|].
    + split; [eapply Forall_impl; [|exact Ff]; intros f (X1 & X2 & X3); unfold accepts in X3; cbn in X3; cbn [fst]; lia|]. unfold base_sum, cost_sum. cbn [fst snd]. lia.
    + split; [constructor; [exact Ed|exact B2]|]. unfold sum_paid, sum_recv, cost_all, base_all, fills_all in *. cbn [map]. rewrite !sumZ_cons, B3, B4, Epd, Erv. split; [reflexivity|]. split; [reflexivity|].
      intros U. inversion U as [|? ? U1 U2]; subst. rewrite (fresh_unfilled _ _ _ Fr Fd0 U1), (B5 U2). reflexivity.
Qed.
Lemma sells_filled ss : Forall fresh_order (map (pool_order n Sell) ss) -> forall l, Forall2 became (map (pool_order n Sell) ss) l ->
  exists fs, sold ss fs /\ Forall (fun o => o_dir o = Sell) l /\ sum_paid l = base_all fs /\ sum_recv l = gain_all fs /\ (Forall (fun o => is_matched o = false) l -> fills_all fs = 0).
Proof.
  induction ss as [|[p a] bs IH]; intros Fa l H; cbn [map] in Fa, H; inversion H as [|o o' ? l' R H']; subst.
  - exists []. split; [constructor|]. split; [constructor|]. split; [reflexivity|]. split; [reflexivity|]. reflexivity.
  - inversion Fa as [|? ? Fr Fa']; subst. destruct (IH Fa' _ H') as (fb & B1 & B2 & B3 & B4 & B5). destruct R as (W & fs & Fd). destruct (proj1 (conj Fr Logic.I)) as (Pp & Pa & _). pose proof Fd as Fd0.
    destruct Fd as (Ff & Ed & Epr & Ea & Eof & _ & _ & Eo & Epd & Erv). destruct W as (_ & W1 & W2 & _). cbn [pool_order new_order o_dir o_price o_amt o_offer o_open o_paid o_recv fst snd] in *.
    exists (fs :: fb). split; [constructor; [|exact B1]|].
    + split; [eapply Forall_impl; [|exact Ff]; intros f (X1 & X2 & X3); unfold accepts in X3; cbn in X3; cbn [fst]; lia|]. unfold base_sum. cbn [fst snd]. lia.
    + split; [constructor; [exact Ed|exact B2]|]. unfold sum_paid, sum_recv, gain_all, base_all, fills_all in *. cbn [map]. rewrite !sumZ_cons, B3, B4, Epd, Erv. split; [reflexivity|]. split; [reflexivity|].
      intros U. inversion U as [|? ? U1 U2]; subst. rewrite (fresh_unfilled _ _ _ Fr Fd0 U1), (B5 U2). reflexivity.
Qed.

(** ** One pair's matching *)
Lemma collect_own pr ap l : forall s s2 ps, wst s -> collect_pools l pr s = Some (s2, ps) -> In (n, ap) ps ->
  exists p, get_pool s n = Some p /\ pl_disabled p = false /\ amm_pool p (pool_rx s p pr) (pool_ry s p pr) (pool_ps s p) = Ok ap /\ is_depleted ap = false.
Proof.
  induction l as [|[k u] l IH]; intros s s2 ps W H Hin; cbn [collect_pools] in H; [injection H as <- <-; destruct Hin|].
  destruct (get_pool s (snd k)) as [p|] eqn:G; [|discriminate H]. destruct (w_pool _ _ _ _ W _ _ G) as [Ep _]. destruct (pl_disabled p) eqn:D; [exact (IH _ _ _ W H Hin)|].
  destruct (amm_pool p (pool_rx s p pr) (pool_ry s p pr) (pool_ps s p)) as [a| |] eqn:A; [|discriminate H|discriminate H]. cbn [of_res] in H. destruct (is_depleted a) eqn:Da.
  - assert (Wm : wst (mark_disabled s p)) by (apply mark_w; [exact W|rewrite Ep; exact G]). destruct (IH _ _ _ Wm H Hin) as (q & Gq & Dq & Aq & Xq). exists q. split; [|split; [exact Dq|split; [exact Aq|exact Xq]]].
    unfold get_pool, mark_disabled, put_pool in Gq. cbn [st_pools set_pools pl_id] in Gq. rewrite mget_mset in Gq. destruct (key_eqb_spec (n, 0) (pl_id p, 0)) as [E|N]; [injection Gq as <-; discriminate Dq|exact Gq].
  - destruct (collect_pools l pr s) as [[s3 r]|] eqn:E; [|discriminate H]. cbn [fst snd] in H. injection H as <- <-. destruct Hin as [Hin|Hin]; [|exact (IH _ _ _ W E Hin)].
    injection Hin as En Ea. subst ap. exists p. rewrite <- En, Ep. auto.
Qed.
Lemma collect_ids pr l : forall s s2 ps, wst s -> collect_pools l pr s = Some (s2, ps) -> NoDup (map (fun kv : key * unit => snd (fst kv)) l) -> NoDup (map fst ps) /\ incl (map fst ps) (map (fun kv : key * unit => snd (fst kv)) l).
Proof.
  induction l as [|[k u] l IH]; intros s s2 ps W H N; cbn [collect_pools] in H; [injection H as <- <-; split; [constructor|apply incl_refl]|]. cbn [map fst] in *. apply NoDup_cons_iff in N. destruct N as [Nk N].
  destruct (get_pool s (snd k)) as [p|] eqn:G; [|discriminate H]. destruct (w_pool _ _ _ _ W _ _ G) as [Ep _].
  destruct (pl_disabled p); [destruct (IH _ _ _ W H N) as [X Y]; split; [exact X|apply incl_tl; exact Y]|].
  destruct (of_res _) as [a|]; [|discriminate H]. destruct (is_depleted a).
  - assert (Wm : wst (mark_disabled s p)) by (apply mark_w; [exact W|rewrite Ep; exact G]). destruct (IH _ _ _ Wm H N) as [X Y]; split; [exact X|apply incl_tl; exact Y].
  - destruct (collect_pools l pr s) as [[s3 r]|] eqn:E; [|discriminate H]. cbn [fst snd] in H. injection H as <- <-. destruct (IH _ _ _ W E N) as [X Y]. cbn [map fst]. rewrite Ep. split; [constructor; [intros Z; exact (Nk (Y _ Z))|exact X]|].
    intros z [<-|Hz]; [left; reflexivity|right; exact (Y _ Hz)].
Qed.

Definition settled (o : order) : Prop := is_matched o = false -> o_paid o = 0 /\ o_recv o = 0.
Lemma side_sum (den : dir -> denom) (v : order -> Z) dr d l : Forall (fun o => o_dir o = dr) l -> Forall (fun o => is_matched o = false -> v o = 0) l ->
  sumZ (map (fun o => if is_matched o then of_denom d (den (o_dir o)) (v o) else 0) l) = of_denom d (den dr) (sumZ (map v l)).
Proof.
  induction 1 as [|o l E F IH]; intros S0; [unfold of_denom; destruct (denom_eqb _ _); reflexivity|]. inversion S0 as [|? ? S1 S2]; subst. cbn [map]. rewrite !sumZ_cons, (IH S2). unfold of_denom. destruct (is_matched o); [destruct (denom_eqb _ _); lia|]. rewrite (S1 eq_refl). destruct (denom_eqb _ _); lia.
Qed.
Lemma ptrs_sum (h1 h2 : heap) (f : order -> Z) : length h2 = length h1 -> (forall k, ~ In k (book_orders (new_order_book h1)) -> (k < length h2)%nat -> is_matched (get h2 k) = false) -> (forall o, is_matched o = false -> f o = 0) ->
  sumZ (map f (filter theirs (map (get h2) (book_orders (new_order_book h1))))) = sumZ (map f (filter theirs h2)).
Proof.
  intros Ln Out Hf. destruct (book_ptrs h1) as [Nd Rg]. rewrite !sum_filter. rewrite (sum_ptrs (fun o => if theirs o then f o else 0) h2 _ Nd); [reflexivity| |].
  - intros p Hp. rewrite Ln. exact (Rg p Hp).
  - intros p Hp Np. rewrite (Hf _ (Out p Np Hp)). destruct (theirs _); reflexivity.
Qed.

Lemma matching_traded (Q : ctl) iter pr s s' p : is_perm_iter iter -> inv Q s -> (forall p, Q p -> sane_ratio p) -> stage_of Q = STrade -> get_pair s (pr_id pr) = Some pr -> wst s -> get_pool s n = Some p ->
  execute_matching iter pr s = Some s' ->
  (forall d, reserve s' n d = reserve s n d) \/
  exists mp ap bs ss fb fs, (exists pr', get_pair s' (pr_id pr) = Some pr' /\ pr_last_price pr' = Some mp) /\ traded s s' pr p mp ap bs ss fb fs.
Proof.
  intros Hi I HQ T Gp W Gn H. pose proof (v_str _ _ I) as S. unfold reserve.
  destruct (execute_matching_spec Q iter pr s s' Hi I HQ T Gp H) as (ss & price & hu & ps & MB & _). destruct (mb_collect _ _ _ _ _ MB) as (s1 & C1 & C2).
  unfold execute_matching in H. rewrite C1 in H. cbn [fst snd] in H. rewrite C2 in H. cbn [fst snd] in H.
  destruct (i_pairs _ S _ _ Gp) as (_ & R & Nbq & _ & _ & Lp & _).
  pose proof (w_users (-1) P False s (pr_id pr) S W) as U. pose proof (collect_orders_fr (-1) P (pr_id pr) _ ltac:(lia) U _ _ _ C1) as M1. pose proof (collect_orders_w (-1) P False _ _ U _ _ _ W C1) as W1. cbn [fst] in M1, W1.
  assert (Nd : NoDup (map fst (mprefix (st_orders s) (pr_id pr)))) by (apply msorted_NoDup, msorted_filter, (i_orders_sorted _ S)).
  assert (Cur : forall k o, In (k, o) (mprefix (st_orders s) (pr_id pr)) -> mget (st_orders s) k = Some o /\ fst k = pr_id pr).
  { intros k o X. apply mprefix_In in X. destruct X as [X Y]. split; [apply snap_current; [apply (i_orders_sorted _ S)|assumption]|exact Y]. }
  destruct (collect_orders_spec Q _ _ (or_introl T) s [] s1 hu I Nd Cur (Forall_nil _) (NoDup_nil _) (fun _ _ _ Z => Z) C1) as (Mc & (_ & R0 & R1 & _) & _).
  destruct (collect_pools_spec Q pr _ (or_introl T) s1 ss ps (inv_mics _ _ _ Mc I) C2) as (_ & Sb & _ & _).
  pose proof (collect_pools_w (-1) P False _ _ _ _ W1 C2) as W2. cbn [fst] in W2.
  assert (Bs : forall d, bal (st_bank ss) (PoolReserve n) d = bal (st_bank s) (PoolReserve n) d) by (intros d; rewrite Sb; exact (mkt_reserve _ _ M1 d)).
  assert (Nid : NoDup (map (fun kv : key * unit => snd (fst kv)) (mprefix (st_plidx s1) (pr_id pr)))).
  { rewrite R1. assert (X : NoDup (map fst (mprefix (st_plidx s) (pr_id pr)))) by (apply msorted_NoDup, msorted_filter, (i_plidx_sorted _ S)).
    assert (Y : Forall (fun kv : key * unit => fst (fst kv) = pr_id pr) (mprefix (st_plidx s) (pr_id pr))) by (apply Forall_forall; intros kv Z; apply mprefix_In in Z; apply Z).
    clear -X Y. induction Y as [|[[a b] u] l E F IH]; [constructor|]. cbn [map fst snd] in *. apply NoDup_cons_iff in X. destruct X as [X1 X2]. constructor; [|exact (IH X2)].
    intros Z. apply in_map_iff in Z. destruct Z as ([[a' b'] u'] & E' & Z). cbn [fst snd] in E'. subst b'. apply X1. apply in_map_iff. exists ((a', b), u'). split; [|exact Z]. rewrite Forall_forall in F. specialize (F _ Z). cbn [fst] in F |- *. congruence. }
  destruct (collect_ids pr _ s1 ss ps W1 C2 Nid) as [Nps _].
  assert (Fh : Forall fresh_order hu) by (eapply Forall_impl; [|exact (mb_entries _ _ _ _ _ MB)]; intros o Ho; apply Ho).
  pose proof (filter_users _ _ _ (mb_entries _ _ _ _ _ MB)) as Fu.
  destruct (v_params _ _ I) as [Vp Qp]. unfold valid_params in Vp. rewrite !andb_true_iff in Vp.
  assert (Hprec : 0 <= pm_tick_prec (st_params s)) by lia. assert (Hrat : 0 <= pm_price_ratio (st_params s) < P18) by (split; [lia|apply HQ; assumption]).
  destruct (kmatch iter (st_params s) hu ps (pr_last_price pr)) as [[h1 r]|] eqn:E3; [|discriminate H]. cbn [fst snd] in H.
  destruct (kmatch_facts iter (st_params s) hu ps (pr_last_price pr) h1 r Hprec Hrat Fh (mb_sound _ _ _ _ _ MB) Lp E3) as (po & Eh1 & Fpo & Out & _).
  destruct r as [[[h2 mp] qd]|]; [|injection H as <-; left; exact Bs]. specialize (Out h2 mp qd eq_refl).
  assert (F1 : Forall fresh_order h1) by (rewrite Eh1; apply Forall_app; split; [exact Fh|eapply Forall_impl; [|exact Fpo]; intros o Ho; apply Ho]).
  assert (Wf : Forall wf_order h1) by (eapply Forall_impl; [|exact F1]; exact fresh_wf).
  destruct (match_outcome_orders _ _ _ _ _ Hi Wf Out) as (Ln & Wf2 & Fb). pose proof (book_ptrs_changed _ _ _ _ _ Hi Wf Out) as Ch.
  destruct (apply_match ss pr _ qd) as [s3|] eqn:E4; [|discriminate H]. injection H as <-.
  destruct (apply_match_reserve ss pr _ qd s3 ltac:(lia) W2 E4) as [A1 A2].
  assert (Fr : forall k, (k < length h1)%nat -> fresh_order (get h1 k)) by (intros k Hk; rewrite Forall_forall in F1; apply F1; apply nth_In; exact Hk).
  assert (Unm : forall k, ~ In k (book_orders (new_order_book h1)) -> (k < length h2)%nat -> is_matched (get h2 k) = false).
  { intros k Nk Hk. rewrite (Ch k Nk). destruct (Fr k ltac:(lia)) as (_ & _ & E & _). unfold is_matched. rewrite E. apply Z.ltb_irrefl. }
  assert (Es3 : forall d, bal (st_bank s3) (PoolReserve n) d = bal (st_bank s) (PoolReserve n) d - paid_in pr (filter theirs h2) d + recv_in pr (filter theirs h2) d).
  { intros d. rewrite A1, Bs. unfold paid_in, recv_in. rewrite !ptrs_sum; try assumption; try reflexivity; intros o Mo; rewrite Mo; reflexivity. }
  pose proof (became_filter _ _ (became_heap h1 h2 Ln Wf2 Fb)) as F2.
  destruct (in_dec Z.eq_dec n (map fst ps)) as [Hin|Nin].
  2: { left. rewrite (kmatch_none _ _ _ _ _ _ _ _ _ Fu Nin E3) in F2. assert (E : filter theirs h2 = []) by (inversion F2; reflexivity). rewrite E in Es3. intros d. cbn [st_bank put_pair set_pairs]. rewrite Es3. unfold paid_in, recv_in. cbn. lia. }
  right. apply in_map_iff in Hin. destruct Hin as ([n' ap] & En & Hin). cbn [fst] in En. subst n'.
  destruct (collect_own pr ap _ s1 ss ps W1 C2 Hin) as (p' & Gp' & Dp & Ap & De). assert (p' = p) as -> by (unfold get_pool in *; rewrite R0 in Gp'; congruence).
  destruct (w_pool _ _ _ _ W _ _ Gn) as [Epl _]. destruct (kmatch_own _ _ _ _ ap _ _ _ _ _ Fu Nps Hin E3) as (bs & sl & Of & Ef).
  assert (Pos : Forall fresh_order (map (pool_order n Buy) bs) /\ Forall fresh_order (map (pool_order n Sell) sl)).
  { assert (X : Forall fresh_order (map (pool_order n Buy) bs ++ map (pool_order n Sell) sl)) by (rewrite <- Ef; apply Forall_forall; intros o Ho; apply filter_In in Ho; rewrite Forall_forall in F1; apply F1; apply Ho).
    apply Forall_app in X. exact X. }
  destruct Pos as [Pb Ps]. rewrite Ef in F2. destruct (Forall2_app_inv_l _ _ F2) as (l1 & l2 & G1 & G2 & El).
  destruct (buys_filled bs Pb _ G1) as (fb & B1 & B2 & B3 & B4 & B5). destruct (sells_filled sl Ps _ G2) as (fs & D1 & D2 & D3 & D4 & D5).
  assert (Idle : Forall settled h2).
  { apply Forall_forall. intros o Ho. destruct (In_nth h2 o dummy_order Ho) as (k & Hk & <-). fold (get h2 k). destruct (Fb k ltac:(lia)) as (f0 & X). intros M. exact (fresh_filled_idle _ _ _ (Fr k ltac:(lia)) X M). }
  assert (Idl : Forall settled l1 /\ Forall settled l2).
  { assert (X : Forall settled (l1 ++ l2)) by (rewrite <- El; apply Forall_forall; intros o Ho; apply filter_In in Ho; rewrite Forall_forall in Idle; apply Idle; apply Ho). apply Forall_app in X. exact X. }
  destruct Idl as [I1 I2].
  assert (Sum : forall d, paid_in pr (filter theirs h2) d = of_denom d (pr_quote pr) (cost_all fb) + of_denom d (pr_base pr) (base_all fs) /\ recv_in pr (filter theirs h2) d = of_denom d (pr_base pr) (base_all fb) + of_denom d (pr_quote pr) (gain_all fs)).
  { intros d. unfold paid_in, recv_in. rewrite El, !map_app, !sumZ_app.
    rewrite (side_sum (offer_denom_of pr) o_paid Buy d l1 B2), (side_sum (offer_denom_of pr) o_paid Sell d l2 D2), (side_sum (demand_denom_of pr) o_recv Buy d l1 B2), (side_sum (demand_denom_of pr) o_recv Sell d l2 D2).
    2-5: eapply Forall_impl; [|eassumption]; intros o So Mo; apply So; exact Mo.
    fold (sum_paid l1) (sum_paid l2) (sum_recv l1) (sum_recv l2). rewrite B3, B4, D3, D4. split; reflexivity. }
  exists mp, ap, bs, sl, fb, fs. split.
  { eexists. split; [unfold get_pair; cbn [st_pairs put_pair set_pairs pr_id]; rewrite mget_mset, key_eqb_refl; reflexivity|reflexivity]. }
  assert (Bq : denom_eqb (pr_base pr) (pr_quote pr) = false) by (destruct (denom_eqb_spec (pr_base pr) (pr_quote pr)); congruence).
  assert (Qb : denom_eqb (pr_quote pr) (pr_base pr) = false) by (destruct (denom_eqb_spec (pr_quote pr) (pr_base pr)); congruence).
  constructor; unfold reserve; rewrite ?Epl; cbn [st_bank put_pair set_pairs].
  - exact Dp.
  - unfold pool_rx, pool_ry, pool_ps in Ap. rewrite Epl in Ap. rewrite !(mkt_reserve _ _ M1) in Ap. replace (supply (st_bank s) (PoolCoin n)) with (supply (st_bank s1) (PoolCoin n)); [exact Ap|]. symmetry. apply (ag_sup _ _ _ _ (m_bank _ _ _ _ M1)). apply Z.eqb_refl.
  - exact De.
  - exact Of.
  - exact B1.
  - exact D1.
  - destruct (existsb is_matched l1) eqn:X1.
    + right. apply D5. apply Forall_forall. intros o2 H2. destruct (is_matched o2) eqn:M2; [|reflexivity]. exfalso. apply existsb_exists in X1. destruct X1 as (o1 & H1 & M1').
      assert (In12 : forall o, In o (l1 ++ l2) -> is_matched o = true -> In o (map (get h2) (book_orders (new_order_book h1))) /\ theirs o = true).
      { intros o Ho Mo. rewrite <- El in Ho. apply filter_In in Ho. destruct Ho as [Ho To]. split; [|exact To]. destruct (In_nth h2 o dummy_order Ho) as (k & Hk & Ek). fold (get h2 k) in Ek.
        destruct (in_dec Nat.eq_dec k (book_orders (new_order_book h1))) as [Y|N]; [apply in_map_iff; exists k; auto|]. pose proof (Unm k N Hk) as Z. rewrite Ek in Z. congruence. }
      destruct (In12 o1 ltac:(apply in_app_iff; left; exact H1) M1') as [Y1 Z1]. destruct (In12 o2 ltac:(apply in_app_iff; right; exact H2) M2) as [Y2 Z2].
      pose proof (A2 o1 o2 Y1 Y2 M1' M2 Z1 Z2) as Ed. rewrite Forall_forall in B2, D2. rewrite (B2 o1 H1), (D2 o2 H2) in Ed. discriminate Ed.
    + left. apply B5. apply Forall_forall. intros o1 H1. destruct (is_matched o1) eqn:M2; [|reflexivity]. assert (existsb is_matched l1 = true) by (apply existsb_exists; eauto). congruence.
  - rewrite Es3. destruct (Sum (pr_quote pr)) as [-> ->]. unfold of_denom. rewrite Qb, denom_eqb_refl. lia.
  - rewrite Es3. destruct (Sum (pr_base pr)) as [-> ->]. unfold of_denom. rewrite Bq, denom_eqb_refl. lia.
  - intros d N1 N2. rewrite Es3. destruct (Sum d) as [-> ->]. unfold of_denom. destruct (denom_eqb_spec d (pr_quote pr)); [contradiction|]. destruct (denom_eqb_spec d (pr_base pr)); [contradiction|]. lia.
Qed.
End Ledger.
