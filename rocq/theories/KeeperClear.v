(** After a batch no two opposite orders of a pair can still trade (C80): from the book to the stored orders. *)
From Verif Require Import Base Dec DecProofs TickModel OrderModel MatchModel MatchSpec OrderProofs MatchProofs MatchLoopProofs MatchBookProofs MatchTop MatchClear PoolModel PoolProofs PoolOrderProofs KeeperModel KeeperLib KeeperSpec KeeperSpec2 LedgerSpec KeeperMicro KeeperBank KeeperSteps KeeperReqs KeeperOrders KeeperBulk KeeperTrade KeeperInv KeeperHist KeeperSettle KeeperBlock KeeperPlace KeeperExpire.
From Coq Require Import Permutation.

Lemma collect_orders_from l : forall s h s1 h1, collect_orders l s h = Some (s1, h1) ->
  forall uo, In uo h1 -> In uo h \/ exists k o, In (k, o) l /\ live o = true /\ user_order o = Ok uo.
Proof.
  induction l as [|[k o] l IH]; intros s h s1 h1 H uo Hu; cbn [collect_orders] in H; [injection H as _ <-; left; exact Hu|].
  assert (W : (exists k o, In (k, o) l /\ live o = true /\ user_order o = Ok uo) -> exists k0 o0, In (k0, o0) ((k, o) :: l) /\ live o0 = true /\ user_order o0 = Ok uo).
  { intros (k0 & o0 & X & Y). exists k0, o0. split; [right; exact X|exact Y]. }
  destruct (o_terminal (ko_status o)) eqn:Et; [destruct (IH _ _ _ _ H uo Hu) as [X|X]; [left; exact X|right; exact (W X)]|].
  destruct (match ko_status o with ONotExecuted => false | _ => expired_at o (st_time s) end).
  - destruct (finish_order s o OExpired) as [sx|]; [|discriminate H]. destruct (IH _ _ _ _ H uo Hu) as [X|X]; [left; exact X|right; exact (W X)].
  - destruct (user_order o) as [u| |] eqn:Eu; [|discriminate H|discriminate H]. cbn [of_res] in H.
    destruct (IH _ _ _ _ H uo Hu) as [X|X]; [|right; exact (W X)]. apply in_app_iff in X. destruct X as [X|[<-|[]]]; [left; exact X|].
    right. exists k, o. split; [left; reflexivity|]. split; [unfold live; rewrite Et; reflexivity|exact Eu].
Qed.

(** The stored order [o1] is [o] after what happened to its stand-in. *)
Definition carried (o o1 : korder) (m : order) : Prop :=
  ko_dir o1 = ko_dir o /\ ko_price o1 = ko_price o /\ ko_remaining o1 = ko_remaining o - o_paid m /\ ko_open o1 = ko_open o - (o_amt m - o_open m).

Lemma matching_heap (Q : ctl) iter pr s s' last : is_perm_iter iter -> inv Q s -> (forall p, Q p -> sane_ratio p) -> stage_of Q = STrade -> get_pair s (pr_id pr) = Some pr ->
  execute_matching iter pr s = Some s' -> pr_last_price pr = Some last ->
  0 < last /\ exists h h2 mp qd m, match_book iter h (new_order_book h) last = Some (h2, mp, qd, m) /\ Forall fresh_order h /\
    (forall lo hi, price_limits last (pm_price_ratio (st_params s)) (pm_tick_prec (st_params s)) = Ok (lo, hi) -> forall o, In o h -> o_dir o = Sell ->
       lo <= o_price o \/ exists j ko, get_order s (pr_id pr) j = Some ko /\ live ko = true /\ ko_dir ko = Sell /\ ko_price ko = o_price o) /\
    forall j o o1, get_order s (pr_id pr) j = Some o -> live o = true -> get_order s' (pr_id pr) j = Some o1 -> live o1 = true ->
      exists p, (p < length h)%nat /\ stands_for (get h p) o /\ (exists fs, filled_by (get h p) fs (get h2 p)) /\ carried o o1 (get h2 p).
Proof.
  intros Hi I HQ T Gp H El. destruct (i_pairs _ (v_str _ _ I) _ _ Gp) as (_ & _ & _ & _ & _ & Lp & _). pose proof (Lp last El) as Hl. split; [exact Hl|].
  destruct (execute_matching_full Q iter pr s s' Hi I HQ T Gp H) as (ss & price & hu & ps & MB & MS & M & _ & _ & _ & _ & _ & _ & Oth & R).
  destruct (mb_collect _ _ _ _ _ MB) as (s1 & C1 & C2). destruct (v_params _ _ I) as [Vp Qp]. unfold valid_params in Vp. rewrite !andb_true_iff in Vp.
  assert (Hprec : 0 <= pm_tick_prec (st_params s)) by lia. assert (Hrat : 0 <= pm_price_ratio (st_params s) < P18) by (split; [lia|apply HQ; assumption]).
  assert (Fh : Forall fresh_order hu) by (eapply Forall_impl; [|exact (mb_entries _ _ _ _ _ MB)]; intros o Ho; apply Ho).
  (* every user order of the book stands for a stored one *)
  assert (Usr : forall lo po, Forall (fun o => o_dir o = Sell -> lo <= o_price o) po -> forall o, In o (hu ++ po) -> o_dir o = Sell ->
     lo <= o_price o \/ exists j ko, get_order s (pr_id pr) j = Some ko /\ live ko = true /\ ko_dir ko = Sell /\ ko_price ko = o_price o).
  { intros lo po Fp o Ho Do. apply in_app_iff in Ho. destruct Ho as [Ho|Ho]; [|left; rewrite Forall_forall in Fp; exact (Fp o Ho Do)].
    destruct (collect_orders_from _ _ _ _ _ C1 o Ho) as [[]|(k & ko & X & L & Eu)]. right. apply mprefix_In in X. destruct X as [X Ek].
    pose proof (snap_current _ _ _ (i_orders_sorted _ (v_str _ _ I)) X) as G. destruct (i_orders _ (v_str _ _ I) _ _ G) as (_ & pr0 & _ & Ok).
    destruct (user_order_stands pr0 ko o Ok Eu) as (_ & D & P & _). exists (snd k), ko. split; [unfold get_order; rewrite <- Ek; destruct k; exact G|]. split; [exact L|]. split; congruence. }
  assert (Live : forall j o, get_order s (pr_id pr) j = Some o -> live o = true -> mget (st_orders ss) (pr_id pr, j) = Some (ko_with_status o OExpired) \/
     exists uo st, mget (st_orders ss) (pr_id pr, j) = Some (ko_with_status o st) /\ In uo hu /\ stands_for uo o /\ o_kind uo = KUser j).
  { intros j o G L. pose proof (mb_offered _ _ _ _ _ MB _ _ G eq_refl L) as Off. destruct (i_orders _ (v_str _ _ I) _ _ G) as (Ek & pr0 & _ & Ok). injection Ek as _ Ek2.
    destruct (_ && _); [left; exact Off|right]. destruct Off as (G1 & uo & Eu & Hu). pose proof (user_order_stands pr0 o uo Ok Eu) as St. exists uo. eexists. split; [exact G1|]. split; [exact Hu|]. split; [exact St|]. destruct St as (K & _). rewrite Ek2. exact K. }
  destruct R as [(_ & (h1 & Ek) & _ & Eo & _)|(po & h & h2 & mp & qd & Ek & _ & Eh & Fpo & MD)].
  - destruct (kmatch_facts iter (st_params s) hu ps (pr_last_price pr) h1 None Hprec Hrat Fh (mb_sound _ _ _ _ _ MB) Lp Ek) as (po & Eh & Fpo & _ & Flo).
    rewrite El in *. unfold kmatch in Ek. cbn zeta in Ek. destruct (price_limits last _ _) as [[lo hi]| |] eqn:Epl; [|discriminate Ek|discriminate Ek]. cbn [of_res fst snd] in Ek.
    destruct (orders_around lo hi _ ps) as [po'|] eqn:Epo; [|discriminate Ek]. destruct (match_book iter (hu ++ po') (new_order_book (hu ++ po')) last) as [[[[h2 mp] qd] m]|] eqn:Em; [|discriminate Ek].
    destruct m; [discriminate Ek|]. injection Ek as Ek. assert (F1 : Forall fresh_order h1) by (rewrite Eh; apply Forall_app; split; [exact Fh|eapply Forall_impl; [|exact Fpo]; intros o Ho; apply Ho]).
    rewrite Ek in Em. exists h1, h2, mp, qd, false. split; [exact Em|]. split; [exact F1|]. split.
    { intros lo' hi' E. rewrite Eh. apply Usr. exact (Flo last lo' hi' eq_refl (eq_trans Epl E)). }
    assert (h2 = h1) as -> by (apply (match_book_idle iter Hi h1 last h2 mp qd); [eapply Forall_impl; [|exact F1]; exact fresh_wf|exact Hl|exact Em]).
    intros j o o1 G L G1 L1. unfold get_order in G1. rewrite Eo in G1. destruct (Live j o G L) as [X|(uo & st & X & Hu & St & K)]; rewrite X in G1; injection G1 as <-; [discriminate L1|].
    assert (Hu1 : In uo h1) by (rewrite Eh; apply in_app_iff; left; exact Hu). destruct (In_nth h1 uo dummy_order Hu1) as (p & Hp & Ep). fold (get h1 p) in Ep. exists p. rewrite Ep.
    split; [exact Hp|]. split; [exact St|]. split; [exists []; unfold filled_by; cbn [map]; change (sumZ []) with 0; rewrite Z.sub_0_r, !Z.add_0_r; repeat split; constructor|].
    destruct St as (_ & _ & _ & _ & _ & _ & _ & So & Sp & _). unfold carried. cbn. rewrite So, Sp. split; [reflexivity|]. split; [reflexivity|]. lia.
  - assert (Em : match_book iter h (new_order_book h) last = Some (h2, mp, qd, true)).
    { rewrite El in Ek. unfold kmatch in Ek. cbn zeta in Ek. destruct (price_limits last _ _) as [[lo hi]| |]; [|discriminate Ek|discriminate Ek]. cbn [of_res fst snd] in Ek.
      destruct (orders_around lo hi _ ps) as [po'|] eqn:Epo; [|discriminate Ek]. destruct (match_book iter (hu ++ po') (new_order_book (hu ++ po')) last) as [[[[h2' mp'] qd'] m]|] eqn:Em; [|discriminate Ek].
      destruct m; [|discriminate Ek]. injection Ek as E1 <- <- <-. rewrite E1 in Em. exact Em. }
    exists h, h2, mp, qd, true. split; [exact Em|]. split; [exact (md_fresh _ _ _ _ _ _ _ _ _ MD)|]. split.
    { intros lo hi Epl. destruct (kmatch_facts iter (st_params s) hu ps (pr_last_price pr) h (Some (h2, mp, qd)) Hprec Hrat Fh (mb_sound _ _ _ _ _ MB) Lp Ek) as (po' & Eh' & _ & _ & Flo). rewrite Eh'. apply Usr. exact (Flo last lo hi El Epl). }
    destruct (match_outcome_orders _ _ _ _ _ Hi (Forall_impl _ fresh_wf (md_fresh _ _ _ _ _ _ _ _ _ MD)) (md_outcome _ _ _ _ _ _ _ _ _ MD)) as (Ln & _ & Fb).
    intros j o o1 G L G1 L1. destruct (Live j o G L) as [X|(uo & st & X & Hu & St & K)].
    + (* ended before the match *)
      exfalso. unfold get_order in G1. rewrite (md_unmatched _ _ _ _ _ _ _ _ _ MD) in G1; [rewrite X in G1; injection G1 as <-; discriminate L1|]. cbn [fst snd]. intros m Hm Mm Km. exfalso.
      destruct (In_nth h2 m dummy_order Hm) as (q & Hq & Eq). fold (get h2 q) in Eq. rewrite Ln in Hq. destruct (Fb q Hq) as (fs & Y). rewrite Eq in Y. destruct Y as (_ & _ & _ & _ & _ & _ & Kq & _).
      destruct (md_users _ _ _ _ _ _ _ _ _ MD (get h q) j (nth_In _ _ Hq) ltac:(congruence)) as (_ & id & ko & K' & G' & L' & _).
      assert (id = j) as -> by congruence. unfold get_order in G'. rewrite X in G'. injection G' as <-. discriminate L'.
    + assert (Huh : In uo h) by (rewrite Eh; apply in_app_iff; left; exact Hu). destruct (In_nth h uo dummy_order Huh) as (p & Hp & Ep). fold (get h p) in Ep. destruct (Fb p Hp) as (fs & F).
      exists p. split; [exact Hp|]. split; [rewrite Ep; exact St|]. split; [exists fs; exact F|]. rewrite Ep in F.
      assert (Km : o_kind (get h2 p) = KUser j) by (destruct F as (_ & _ & _ & _ & _ & _ & Y & _); congruence). assert (In2 : In (get h2 p) h2) by (apply nth_In; lia).
      destruct (is_matched (get h2 p)) eqn:Mt.
      * rewrite (md_matched _ _ _ _ _ _ _ _ _ MD (get h2 p) j _ In2 Mt Km X) in G1. injection G1 as <-. unfold carried, matched_order. cbn. split; [reflexivity|]. split; [reflexivity|]. lia.
      * unfold get_order in G1. rewrite (md_unmatched _ _ _ _ _ _ _ _ _ MD) in G1.
        -- rewrite X in G1. injection G1 as <-. destruct St as (_ & _ & _ & _ & _ & _ & _ & So & Sp & _). destruct F as (Fp & _ & _ & Fa & _ & _ & _ & Fo & Fd & _).
           unfold is_matched in Mt. apply Z.ltb_ge in Mt. destruct fs as [|f fs]; [cbn [map] in Fo, Fd; change (sumZ []) with 0 in Fo, Fd; unfold carried; cbn; split; [reflexivity|]; split; [reflexivity|]; lia|]. exfalso.
           cbn [map] in Fo. rewrite sumZ_cons in Fo. apply Forall_cons_iff in Fp. destruct Fp as [(F1 & _) Fp]. assert (0 <= sumZ (map fst fs)); [|lia].
           clear -Fp. induction Fp as [|x l (A & _) _ IH]; [change (0 <= 0); lia|]. cbn [map]. rewrite sumZ_cons. lia.
        -- cbn [fst snd]. intros m Hm Mm Kmm. exfalso. destruct (In_nth h2 m dummy_order Hm) as (q & Hq & Eq). fold (get h2 q) in Eq. rewrite Ln in Hq. destruct (Fb q Hq) as (fs' & Y). rewrite Eq in Y. destruct Y as (_ & _ & _ & _ & _ & _ & Kq & _).
           assert (p = q); [|subst q; rewrite <- Eq, Mt in Mm; discriminate Mm].
           apply (user_ids_inj h (md_nodup _ _ _ _ _ _ _ _ _ MD) p q j Hp Hq); unfold uid; [rewrite Ep, K; left; reflexivity|]. rewrite <- Kq, Kmm. left. reflexivity.
Qed.

(** ** The batch *)
Section Batch.
Variable Q : params -> Prop.
Variable iter : list (nat * Z) -> list (nat * Z).
Hypothesis Hi : is_perm_iter iter.
Variables s s' : state.
Hypothesis R : reach (sane Q) (InBlock, s).
Hypothesis HB : st_height s mod pm_batch_size (st_params s) = 0.
Hypothesis HE : end_block iter s = Some s'.

(** The matching of one pair inside the batch, and what the batch stores afterwards. *)
Lemma batch_matching i pr : get_pair s i = Some pr ->
  exists sa sb, inv (mkCtl (sane Q) STrade) sa /\ pr_id pr = i /\ get_pair sa i = Some pr /\ execute_matching iter pr sa = Some sb /\ st_params sa = st_params s /\
    (forall j, get_order sa i j = get_order s i j) /\
    (forall j o1, get_order sb i j = Some o1 -> exists o', get_order s' i j = Some o' /\ after_expiry (st_time s) o1 o').
Proof.
  intros Gp. destruct (batch_time Q iter Hi s s' R HB HE) as (_ & s1 & s2 & E1 & E2 & O2 & M1 & I1 & T1). pose proof (proj1 (okp_st _ STrade _) (reach_okp Q _ R)) as I. cbn [snd] in I.
  assert (Epr : pr_id pr = i) by exact (get_pair_id _ _ _ (v_str _ _ I) Gp).
  pose proof (i_pairs_sorted _ (v_str _ _ I)) as Sp. pose proof (msorted_NoDup _ Sp) as Np.
  destruct (in_split _ _ (mget_In _ _ _ Gp)) as (l1 & l2 & El).
  assert (Cur : forall k v, In (k, v) (l1 ++ (i, 0, pr) :: l2) -> mget (st_pairs s) k = Some v) by (intros k v X; apply snap_current; [exact Sp|rewrite El; exact X]).
  rewrite El in E1, Np. destruct (for_each_app _ _ _ _ _ E1) as (sa & Ea & Eb). cbn [for_each snd] in Eb. destruct (execute_matching iter pr sa) as [sb|] eqn:Ex; [|discriminate Eb].
  rewrite map_app in Np. cbn [map fst] in Np. pose proof (NoDup_remove_2 _ _ _ Np) as Nin. pose proof (NoDup_remove_1 _ _ _ Np) as Nd.
  assert (N1 : NoDup (map fst l1) /\ NoDup (map fst l2)).
  { clear -Nd. induction (map fst l1) as [|x l IH]; [split; [constructor|exact Nd]|]. cbn [app] in Nd. apply NoDup_cons_iff in Nd. destruct Nd as [A B]. destruct (IH B) as [C D]. split; [constructor; [|exact C]|exact D]. intros X. apply A, in_app_iff. left. exact X. }
  destruct N1 as [N1 N2]. rewrite in_app_iff in Nin.
  destruct (matching_around (mkCtl (sane Q) STrade) iter l1 Hi (batch_sane Q) eq_refl s sa I N1) as (Ma & Ta & Pma & Oa & Pa); [intros k v X; apply Cur, in_app_iff; left; exact X|exact Ea|].
  pose proof (inv_mics _ _ _ Ma I) as Ia.
  assert (Gpa : get_pair sa i = Some pr) by (unfold get_pair; rewrite Pa by tauto; exact Gp). rewrite <- Epr in Gpa.
  destruct (execute_matching_spec (mkCtl (sane Q) STrade) iter pr sa sb Hi Ia (batch_sane Q) eq_refl Gpa Ex) as (ss & price & hu & ps & _ & _ & Mb & Pb & _ & _ & _ & Tb & _).
  pose proof (inv_mics _ _ _ Mb Ia) as Ib.
  destruct (matching_around (mkCtl (sane Q) STrade) iter l2 Hi (batch_sane Q) eq_refl sb s1 Ib N2) as (_ & _ & _ & Ob & _); [|exact Eb|].
  { intros k v X. rewrite Pb. assert (Nk : k <> (i, 0)) by (intros ->; apply Nin; right; exact (in_map fst _ _ X)). rewrite mget_mset_neq by (rewrite Epr; exact Nk). rewrite Pa; [apply Cur, in_app_iff; right; right; exact X|].
    intros Y. clear -Nd X Y. revert Nd. induction (map fst l1) as [|x l IH]; [destruct Y|]. cbn [app]. intros Nd. apply NoDup_cons_iff in Nd. destruct Nd as [A B]. destruct Y as [->|Y]; [|exact (IH Y B)]. apply A, in_app_iff. right. exact (in_map fst _ _ X). }
  rewrite Epr in Gpa. exists sa, sb. split; [exact Ia|]. split; [exact Epr|]. split; [exact Gpa|]. split; [exact Ex|]. split; [exact Pma|]. split.
  - intros j. unfold get_order. apply Oa. cbn [fst]. tauto.
  - intros j o1 G1. assert (G1' : get_order s1 i j = Some o1) by (unfold get_order; rewrite Ob by (cbn [fst]; tauto); exact G1).
    pose proof (i_orders_sorted _ (v_str _ _ I1)) as So.
    destruct (expire_loop (mkCtl (sane Q) SReq) (st_orders s1) (or_intror eq_refl) s1 s2 I1 (msorted_NoDup _ So)) as (A & _); [intros k v X; apply snap_current; assumption|exact E2|].
    destruct (A _ _ (mget_In _ _ _ G1')) as (o' & Go' & Ae). rewrite T1 in Ae. exists o'. split; [unfold get_order; rewrite O2; exact Go'|exact Ae].
Qed.
End Batch.

Lemma spent_sell_dead m : wf_order m -> o_dir m = Sell -> P18 <= o_price m -> spent m -> o_open m <= 0.
Proof.
  intros W D P Sp. pose proof P18_pos as H18. destruct (matchable_greatest m (o_price m) W ltac:(lia)) as (_ & G & _). rewrite Sp in G.
  destruct (Z_le_gt_dec (o_open m) 0) as [L|L]; [exact L|]. apply G; [split; [lia|intros X; congruence]|]. unfold floor_value. pose proof (Z.div_le_mono (P18 * 1) (o_price m * o_open m) P18 H18 ltac:(nia)) as X. rewrite Z.mul_comm, Z.div_mul in X by lia. lia.
Qed.
Lemma spent_buy_poor m : wf_order m -> o_dir m = Buy -> P18 <= o_price m -> spent m -> 0 < o_open m -> (o_offer m - o_paid m) * P18 < o_price m.
Proof.
  intros W D P Sp Op. pose proof P18_pos as H18. destruct (matchable_greatest m (o_price m) W ltac:(lia)) as (_ & G & _). rewrite Sp in G.
  destruct (Z_lt_le_dec ((o_offer m - o_paid m) * P18) (o_price m)) as [L|L]; [exact L|]. exfalso.
  assert (X : 1 <= 0); [|lia]. apply G.
  - split; [lia|]. intros _. unfold ceil_value. rewrite Z.mul_1_r. pose proof (Z.div_mod (- o_price m) P18 ltac:(lia)). pose proof (Z.mod_pos_bound (- o_price m) P18 H18). nia.
  - unfold floor_value. rewrite Z.mul_1_r. pose proof (Z.div_le_mono P18 (o_price m) P18 H18 P) as X. rewrite Z.div_same in X by lia. lia.
Qed.

Theorem batch_clears (Q : params -> Prop) iter s s' i pr last lo hi : is_perm_iter iter -> reach (sane Q) (InBlock, s) -> st_height s mod pm_batch_size (st_params s) = 0 -> end_block iter s = Some s' ->
  get_pair s i = Some pr -> pr_last_price pr = Some last -> price_limits last (pm_price_ratio (st_params s)) (pm_tick_prec (st_params s)) = Ok (lo, hi) ->
  P18 <= last -> P18 <= lo -> (forall j o, get_order s i j = Some o -> live o = true -> ko_dir o = Sell -> P18 <= ko_price o) ->
  forall jb js b b' v v', get_order s i jb = Some b -> live b = true -> ko_dir b = Buy -> get_order s i js = Some v -> live v = true -> ko_dir v = Sell -> ko_price v <= ko_price b ->
  get_order s' i jb = Some b' -> live b' = true -> get_order s' i js = Some v' -> live v' = true ->
  ko_price b' = ko_price b /\ (ko_remaining b' * P18 < ko_price b' \/ ko_open b - ko_open b' = ko_remaining b * P18 / ko_price b /\ ko_remaining b * P18 / ko_price b < ko_open b).
Proof.
  intros Hi R HB HE Gp El Epl Hl1 Hlo Hs jb js b b' v v' Gb Lb Db Gv Lv Dv Hc Gb' Lb' Gv' Lv'.
  destruct (batch_matching Q iter Hi s s' R HB HE i pr Gp) as (sa & sb & Ia & Epr & Gpa & Ex & Ep & Oa & Ob). rewrite <- Epr in Gpa.
  destruct (matching_heap (mkCtl (sane Q) STrade) iter pr sa sb last Hi Ia (batch_sane Q) eq_refl Gpa Ex El) as (Hl & h & h2 & mp & qd & m & Em & Fr & Sl & Ord). rewrite Epr, Ep in Sl. rewrite Epr in Ord.
  assert (W1 : Forall wf_order h) by (eapply Forall_impl; [|exact Fr]; exact fresh_wf).
  assert (Keep : forall j o o', get_order s i j = Some o -> live o = true -> get_order s' i j = Some o' -> live o' = true -> get_order sb i j = Some o' /\ min_coin_amount <= ko_open o').
  { intros j o o' G L G' L'. rewrite <- Oa in G. rewrite <- Epr in G. destruct (order_matching (mkCtl (sane Q) STrade) iter pr sa sb j o Hi Ia (batch_sane Q) eq_refl Gpa Ex G L) as (o1 & G1 & _).
    rewrite Epr in G1. destruct (Ob j o1 G1) as (o2 & G2 & A). rewrite G' in G2. injection G2 as <-. destruct A as [[-> X]|(_ & _ & ->)]; [|discriminate L'].
    split; [exact G1|]. specialize (X L'). unfold must_end in X. destruct (Z_le_gt_dec min_coin_amount (ko_open o1)) as [Y|Y]; [exact Y|]. exfalso. apply X. right. intros [Z _]. lia. }
  destruct (Keep jb b b' Gb Lb Gb' Lb') as [Gb1 Mb]. destruct (Keep js v v' Gv Lv Gv' Lv') as [Gv1 Mv].
  rewrite <- Oa in Gb, Gv.
  destruct (Ord jb b b' Gb Lb Gb1 Lb') as (p & Hp & Sb & (fb & Fb) & Cb1 & Cb2 & Cb3 & Cb4). destruct (Ord js v v' Gv Lv Gv1 Lv') as (q & Hq & Sv & (fv & Fv) & Cv1 & Cv2 & Cv3 & Cv4).
  destruct Sb as (_ & Sb2 & Sb3 & _ & Sb5 & Sb6 & Sb7 & Sb8 & Sb9 & _). destruct Sv as (_ & Sv2 & Sv3 & _ & Sv5 & Sv6 & Sv7 & Sv8 & Sv9 & _).
  destruct Fb as (_ & Fb2 & Fb3 & Fb4 & Fb5 & _). destruct Fv as (_ & Fv2 & Fv3 & Fv4 & Fv5 & _).
  assert (P1 : P18 <= ko_price v) by (apply (Hs js v); [rewrite <- Oa; exact Gv|exact Lv|exact Dv]). pose proof P18_pos as H18.
  destruct (match_orders_ok iter h last Hi W1 Hl) as (h2' & mp' & qd' & m' & tr & E' & M' & _). rewrite Em in E'. injection E' as <- <- <- <-.
  pose proof (trace_wf _ _ _ (mr_trace _ _ _ _ _ _ M') (proj1 (wf_heap_Forall h) W1)) as W2. pose proof (trace_length _ _ _ (mr_trace _ _ _ _ _ _ M')) as Ln.
  assert (Wp : wf_order (get h2 p)) by (apply W2; lia). assert (Wq : wf_order (get h2 q)) by (apply W2; lia).
  assert (Cl : spent (get h2 p) \/ spent (get h2 q)).
  { apply (match_book_clears iter Hi h last h2 mp qd m W1 Hl Em); [|exact Hp|exact Hq|congruence|congruence|lia].
    destruct (price_direction h (new_order_book h) last); [exact Hl1| |exact Logic.I]. intros o Ho Do. destruct (Sl lo hi Epl o Ho Do) as [X|(j & ko & G & L & D & P)]; [lia|].
    rewrite <- P. apply (Hs j ko); [rewrite <- Oa; exact G|exact L|exact D]. }
  unfold min_coin_amount in Mb, Mv. split; [exact Cb2|]. destruct Cl as [Cl|Cl].
  - destruct (Z_le_gt_dec (o_open (get h2 p)) 0) as [L|L].
    + right. destruct Wp as (_ & Wa & _). assert (E0 : o_open (get h2 p) = 0) by lia. destruct Sb7 as [X|[_ X]]; [exfalso; lia|]. rewrite <- X. lia.
    + left. pose proof (spent_buy_poor _ Wp ltac:(congruence) ltac:(lia) Cl ltac:(lia)) as X. rewrite Cb2, Cb3. rewrite Fb3, Sb3, Fb5, Sb5 in X. exact X.
  - exfalso. pose proof (spent_sell_dead _ Wq ltac:(congruence) ltac:(lia) Cl) as X. destruct Sv7 as [Y|[Y _]]; [lia|congruence].
Qed.
