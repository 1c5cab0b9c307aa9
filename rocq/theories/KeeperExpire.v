(** What one batch does to one live order. *)
From Verif Require Import Base Dec DecProofs TickModel OrderModel MatchModel MatchSpec MatchProofs MatchTop PoolModel PoolProofs KeeperModel KeeperLib KeeperSpec KeeperSpec2 LedgerSpec KeeperMicro KeeperBank KeeperSteps KeeperReqs KeeperOrders KeeperBulk KeeperTrade KeeperInv KeeperHist KeeperSettle KeeperBlock KeeperPlace.
From Coq Require Import Permutation.

Lemma expire_step (Q : ctl) k o s s' : batching Q -> inv Q s -> mget (st_orders s) k = Some o -> expire_order o s = Some s' ->
  exists o', mget (st_orders s') k = Some o' /\ after_expiry (st_time s) o o' /\ forall k', k' <> k -> mget (st_orders s') k' = mget (st_orders s) k'.
Proof.
  intros B I G H. destruct (i_orders _ (v_str _ _ I) _ _ G) as (Ek & pr & _ & Ok). destruct Ok as (_ & _ & _ & _ & _ & _ & P & _).
  assert (Go : get_order s (ko_pair o) (ko_id o) = Some o) by (unfold get_order; rewrite <- Ek; exact G).
  destruct (live o) eqn:L.
  - assert (Fin : must_end (st_time s) o -> finish_order s o OExpired = Some s' ->
      exists o', mget (st_orders s') k = Some o' /\ after_expiry (st_time s) o o' /\ forall k', k' <> k -> mget (st_orders s') k' = mget (st_orders s) k').
    { intros Me F. exists (ko_with_status o OExpired). rewrite Ek. split; [exact (finish_order_get _ _ _ _ F L)|]. split; [right; auto|]. intros k' N. exact (finish_order_orders _ _ _ _ F k' N). }
    assert (Mt : o_matchable (ko_status o) = true) by (unfold live in L; destruct (ko_status o); try reflexivity; discriminate L).
    unfold expire_order in H. rewrite Mt in H. cbn [andb] in H. unfold expired_at in H. destruct (Z.leb_spec (ko_expire o) (st_time s)) as [Le|Gt].
    + apply Fin; [left; exact Le|exact H].
    + destruct (is_too_small (ko_open o) (ko_price o)) as [[|]| |] eqn:Es; cbn [of_res] in H; try discriminate H.
      * apply Fin; [|exact H]. right. intros Be. apply (too_small_iff _ _ P) in Be. rewrite Es in Be. discriminate Be.
      * injection H as <-. exists o. split; [exact G|]. split; [|reflexivity]. left. split; [reflexivity|]. intros _ [X|X]; [lia|]. apply X, (too_small_iff _ _ P). exact Es.
  - assert (E : s' = s).
    { unfold live in L. apply negb_false_iff in L. assert (F : forall st x, finish_order s o st = Some x -> x = s) by (intros st x F; unfold finish_order in F; rewrite L in F; injection F as <-; reflexivity).
      unfold expire_order in H. destruct (_ && _); [exact (F _ _ H)|]. destruct (of_res _) as [[|]|]; [exact (F _ _ H)|injection H as <-; reflexivity|discriminate H]. }
    subst s'. exists o. split; [exact G|]. split; [|reflexivity]. left. split; [reflexivity|]. rewrite L. discriminate.
Qed.

Lemma expire_loop (Q : ctl) l : batching Q -> forall s s', inv Q s -> NoDup (map fst l) -> (forall k o, In (k, o) l -> mget (st_orders s) k = Some o) ->
  for_each (fun kv : key * korder => expire_order (snd kv)) l s = Some s' ->
  (forall k o, In (k, o) l -> exists o', mget (st_orders s') k = Some o' /\ after_expiry (st_time s) o o') /\ (forall k, ~ In k (map fst l) -> mget (st_orders s') k = mget (st_orders s) k).
Proof.
  intros B. induction l as [|[k o] l IH]; intros s s' I N C H; cbn [for_each snd] in H.
  - injection H as <-. split; [intros k o []|reflexivity].
  - destruct (expire_order o s) as [s1|] eqn:E; [|discriminate H]. cbn [map fst] in N. apply NoDup_cons_iff in N. destruct N as [N1 N2].
    pose proof (C k o (or_introl eq_refl)) as G. destruct (expire_step Q k o s s1 B I G E) as (o1 & G1 & A1 & O1).
    destruct (expire_mics Q o k s s1 B I G E) as [M1 _].
    assert (T1 : st_time s1 = st_time s).
    { destruct (expire_keeps_reqs [(k, o)] s s1) as (_ & _ & T & _); [cbn [for_each snd]; rewrite E; reflexivity|exact T]. }
    assert (Nk : forall k' o', In (k', o') l -> k' <> k) by (intros k' o' X ->; apply N1; exact (in_map fst _ _ X)).
    destruct (IH s1 s' (inv_mics Q _ _ M1 I) N2) as (A & O); [|exact H|].
    { intros k' o' X. rewrite O1 by (exact (Nk k' o' X)). apply C. right. exact X. }
    rewrite T1 in A. split.
    + intros k' o' [X|X]; [|exact (A k' o' X)]. injection X as <- <-. exists o1. split; [|exact A1]. rewrite O by exact N1. exact G1.
    + intros k' X. cbn [map fst] in X. rewrite O by (intros Y; apply X; right; exact Y). apply O1. intros ->. apply X. left. reflexivity.
Qed.

(** The other pairs leave the order alone. *)
Lemma matching_around (Q : ctl) iter l : is_perm_iter iter -> (forall p, Q p -> sane_ratio p) -> stage_of Q = STrade -> forall s s', inv Q s ->
  NoDup (map fst l) -> (forall k pr, In (k, pr) l -> mget (st_pairs s) k = Some pr) ->
  for_each (fun kv : key * pair => execute_matching iter (snd kv)) l s = Some s' ->
  mics Q s s' /\ st_time s' = st_time s /\ st_params s' = st_params s /\
  (forall k, ~ In (fst k, 0) (map fst l) -> mget (st_orders s') k = mget (st_orders s) k) /\
  (forall k, ~ In k (map fst l) -> mget (st_pairs s') k = mget (st_pairs s) k).
Proof.
  intros Hi HQ T. induction l as [|[k pr] l IH]; intros s s' I N C H; cbn [for_each] in H.
  - injection H as <-. split; [constructor|]. auto.
  - cbn [snd] in H. destruct (execute_matching iter pr s) as [s1|] eqn:E; [|discriminate H].
    pose proof (C k pr (or_introl eq_refl)) as G. pose proof (pairs_key Q _ _ _ I G) as ->.
    destruct (execute_matching_spec Q iter pr s s1 Hi I HQ T G E) as (ss & price & hu & ps & _ & _ & M & P & _ & _ & Ep & Et & _ & Oth & _).
    cbn [map] in N. apply NoDup_cons_iff in N. destruct N as [N1 N2].
    destruct (IH s1 s' (inv_mics Q _ _ M I) N2) as (A & B & D & F & K); [|exact H|].
    { intros k' pr' X. rewrite P. rewrite mget_mset_neq; [apply C; right; exact X|]. intros E0. apply N1. cbn [fst]. rewrite <- E0. exact (in_map fst _ _ X). }
    split; [exact (mics_trans _ _ _ _ M A)|]. split; [congruence|]. split; [congruence|]. split.
    + intros k X. cbn [map fst] in X. rewrite F by (intros Y; apply X; right; exact Y). apply Oth. intros Y. apply X. left. rewrite Y. reflexivity.
    + intros k X. cbn [map fst] in X. rewrite K by (intros Y; apply X; right; exact Y). rewrite P. apply mget_mset_neq. intros ->. apply X. left. reflexivity.
Qed.

Lemma user_ids_inj (h : heap) : NoDup (user_ids h) -> forall p q id, (p < length h)%nat -> (q < length h)%nat -> In id (uid (get h p)) -> In id (uid (get h q)) -> p = q.
Proof.
  induction h as [|o h IH]; intros N p q id Hp Hq Ip Iq; [cbn in Hp; lia|]. unfold user_ids in N. cbn [flat_map] in N. fold (user_ids h) in N.
  assert (N2 : NoDup (user_ids h)). { clear -N. induction (uid o) as [|x l IH]; [exact N|]. cbn in N. inversion N; auto. }
  assert (N3 : forall id, In id (uid o) -> ~ In id (user_ids h)).
  { clear -N. intros id. induction (uid o) as [|x l IH]; [intros []|]. cbn in N. inversion N as [|? ? A1 A2]; subst. intros [->|X]; [|auto]. intros Y. apply A1. apply in_app_iff. auto. }
  assert (In' : forall r id, (r < length h)%nat -> In id (uid (get h r)) -> In id (user_ids h)).
  { intros r id' Hr Hx. unfold user_ids. apply in_flat_map. exists (get h r). split; [apply nth_In; assumption|assumption]. }
  destruct p as [|p], q as [|q]; cbn [length] in Hp, Hq; unfold get in *; cbn [nth] in *.
  - reflexivity.
  - exfalso. apply (N3 id Ip). apply (In' q id ltac:(lia) Iq).
  - exfalso. apply (N3 id Iq). apply (In' p id ltac:(lia) Ip).
  - f_equal. apply (IH N2 p q id); auto; lia.
Qed.

Lemma user_order_stands pr o uo : order_ok pr o -> user_order o = Ok uo -> stands_for uo o.
Proof.
  intros Ok H. destruct (user_order_fresh _ _ _ Ok H) as ((_ & _ & Fo & _ & Fp & Fr & _) & K & D & Of & Am & Pr & Ba).
  split; [exact K|]. split; [exact D|]. split; [exact Pr|]. split; [exact Ba|]. split; [exact Of|]. split; [exact Am|].
  split; [|split; [exact Fo|]; split; [exact Fp|exact Fr]].
  destruct Ok as (_ & _ & _ & _ & _ & _ & P & O & R & _). unfold user_order in H. apply rbind_ok in H. destruct H as (amt & Ea & H). injection H as <-. cbn [o_amt new_order].
  destruct (ko_dir o); [|injection Ea as <-; left; reflexivity]. unfold safe_math in Ea.
  match type of Ea with (match ?e with _ => _ end) = _ => destruct e as [x| |] eqn:E end; [|injection Ea as <-; left; reflexivity|discriminate Ea].
  injection Ea as <-. apply rbind_ok in E. destruct E as (q & Eq & E). apply rbind_ok in E. destruct E as (a & Et & E). injection E as <-.
  apply c_quo_trunc_ok in Eq. destruct Eq as [_ ->]. apply c_trunc_ok in Et. destruct Et as [-> _]. rewrite quo_trunc_int by lia.
  destruct (Z.min_spec (ko_open o) (ko_remaining o * P18 / ko_price o)) as [[_ ->]|[_ ->]]; [left; reflexivity|right; split; reflexivity].
Qed.

(** What the matching of its pair does to a live order: an order already tried that has expired ends;
    every other order is given to the matching engine, and then its fills are recorded. *)
Definition tried (o : korder) : bool := match ko_status o with ONotExecuted => false | _ => true end.
Definition matching_fate (sa : state) (pr : pair) (o o1 : korder) : Prop :=
  (tried o = true /\ ko_expire o <= st_time sa /\ o1 = ko_with_status o OExpired) \/
  ((tried o = false \/ st_time sa < ko_expire o) /\ exists hu uo, offered sa pr hu /\ In uo hu /\ stands_for uo o /\
     (o1 = ko_with_status o (if tried o then ko_status o else ONotMatched) \/
      exists fs m, fs <> [] /\ filled_by uo fs m /\ after_fills o o1 m)).

Lemma order_matching (Q : ctl) iter pr s s' j o : is_perm_iter iter -> inv Q s -> (forall p, Q p -> sane_ratio p) -> stage_of Q = STrade -> get_pair s (pr_id pr) = Some pr ->
  execute_matching iter pr s = Some s' -> get_order s (pr_id pr) j = Some o -> live o = true ->
  exists o1, get_order s' (pr_id pr) j = Some o1 /\ matching_fate s pr o o1.
Proof.
  intros Hi I HQ T Gp H G L.
  destruct (execute_matching_spec Q iter pr s s' Hi I HQ T Gp H) as (ss & price & hu & ps & MB & MS & M & _ & _ & _ & _ & _ & _ & Oth & R).
  pose proof (mb_offered _ _ _ _ _ MB _ _ G eq_refl L) as Off. unfold expired_at in Off. fold (tried o) in Off.
  destruct (mb_collect _ _ _ _ _ MB) as (s1 & C1 & C2).
  destruct (i_orders _ (v_str _ _ I) _ _ G) as (Ek & pr0 & Gp0 & Ok). injection Ek as Ek1 Ek2. unfold get_pair in *. rewrite <- Ek1, Gp in Gp0. injection Gp0 as <-.
  destruct (tried o && (ko_expire o <=? st_time s)) eqn:Ex.
  - apply andb_true_iff in Ex. destruct Ex as [Tr Ex]. apply Z.leb_le in Ex.
    exists (ko_with_status o OExpired). split; [|left; auto].
    destruct R as [(_ & _ & Eo & _)|(po & h & h2 & mp & qd & _ & Eh & Fpo & MD)]; [unfold get_order; rewrite Eo; exact Off|].
    unfold get_order. rewrite (md_unmatched _ _ _ _ _ _ _ _ _ MD); [exact Off|]. cbn [fst snd]. intros m Hm Mm Km. exfalso.
    destruct (match_outcome_orders _ _ _ _ _ Hi (Forall_impl _ fresh_wf (md_fresh _ _ _ _ _ _ _ _ _ MD)) (md_outcome _ _ _ _ _ _ _ _ _ MD)) as (Ln & _ & Fb).
    destruct (In_nth h2 m dummy_order Hm) as (q & Hq & Eq). fold (get h2 q) in Eq. rewrite Ln in Hq. destruct (Fb q Hq) as (fs & X). rewrite Eq in X. destruct X as (_ & _ & _ & _ & _ & _ & Kq & _).
    assert (In0 : In (get h q) h) by (apply nth_In; assumption).
    destruct (md_users _ _ _ _ _ _ _ _ _ MD (get h q) j In0 ltac:(congruence)) as (_ & id & ko & K' & G' & L' & _).
    assert (id = j) as -> by congruence. unfold get_order in G'. rewrite Off in G'. injection G' as <-. discriminate L'.
  - destruct Off as (G1 & uo & Eu & Hu). pose proof (user_order_stands pr o uo Ok Eu) as St.
    assert (Fate : (tried o = false \/ st_time s < ko_expire o)) by (apply andb_false_iff in Ex; destruct Ex as [Ex|Ex]; [left; exact Ex|right; apply Z.leb_gt; exact Ex]).
    assert (Est : (match ko_status o with ONotExecuted => ONotMatched | st => st end) = (if tried o then ko_status o else ONotMatched)) by (unfold tried; destruct (ko_status o); reflexivity).
    rewrite Est in G1. set (o0 := ko_with_status o (if tried o then ko_status o else ONotMatched)) in *.
    assert (W : forall o1, (o1 = o0 \/ exists fs m, fs <> [] /\ filled_by uo fs m /\ after_fills o o1 m) -> matching_fate s pr o o1).
    { intros o1 X. right. split; [exact Fate|]. exists hu, uo. split; [exists s1; exact C1|]. split; [exact Hu|]. split; [exact St|exact X]. }
    destruct R as [(_ & _ & Eo & _)|(po & h & h2 & mp & qd & _ & Eh & Fpo & MD)]; [exists o0; split; [unfold get_order; rewrite Eo; exact G1|apply W; left; reflexivity]|].
    destruct (match_outcome_orders _ _ _ _ _ Hi (Forall_impl _ fresh_wf (md_fresh _ _ _ _ _ _ _ _ _ MD)) (md_outcome _ _ _ _ _ _ _ _ _ MD)) as (Ln & _ & Fb).
    assert (Huh : In uo h) by (rewrite Eh; apply in_app_iff; left; exact Hu).
    destruct (In_nth h uo dummy_order Huh) as (p & Hp & Ep). fold (get h p) in Ep. destruct (Fb p Hp) as (fs & F). rewrite Ep in F.
    destruct St as (Ku & _ & _ & _ & _ & _ & _ & Ou & _). rewrite <- Ek2 in Ku.
    assert (Km : o_kind (get h2 p) = KUser j) by (destruct F as (_ & _ & _ & _ & _ & _ & X & _); congruence).
    assert (In2 : In (get h2 p) h2) by (apply nth_In; lia).
    destruct (is_matched (get h2 p)) eqn:Mt.
    + exists (matched_order o0 (get h2 p)). split; [exact (md_matched _ _ _ _ _ _ _ _ _ MD (get h2 p) j o0 In2 Mt Km G1)|].
      apply W. right. exists fs, (get h2 p). split; [|split; [exact F|reflexivity]].
      intros ->. destruct F as (_ & _ & _ & Fa & _ & _ & _ & Fo & _). unfold is_matched in Mt. apply Z.ltb_lt in Mt. cbn [map] in Fo. change (sumZ []) with 0 in Fo. lia.
    + exists o0. split; [|apply W; left; reflexivity]. unfold get_order. rewrite (md_unmatched _ _ _ _ _ _ _ _ _ MD); [exact G1|]. cbn [fst snd]. intros m Hm Mm Kmm. exfalso.
      destruct (In_nth h2 m dummy_order Hm) as (q & Hq & Eq). fold (get h2 q) in Eq. rewrite Ln in Hq. destruct (Fb q Hq) as (fs' & X). rewrite Eq in X. destruct X as (_ & _ & _ & _ & _ & _ & Kq & _).
      assert (p = q); [|subst q; rewrite <- Eq, Mt in Mm; discriminate Mm].
      apply (user_ids_inj h (md_nodup _ _ _ _ _ _ _ _ _ MD) p q j Hp Hq); unfold uid; [rewrite Ep, Ku; left; reflexivity|]. rewrite <- Kq, Kmm. left. reflexivity.
Qed.

Lemma wds_keep_orders l : forall s s', for_each (fun kv : key * wreq => execute_wd_if (snd kv)) l s = Some s' -> st_orders s' = st_orders s /\ st_time s' = st_time s.
Proof.
  assert (F : forall r st s s', finish_wd s r st = Some s' -> st_orders s' = st_orders s /\ st_time s' = st_time s).
  { intros r st s s' H. unfold finish_wd in H. destruct (wr_status r); [|injection H as <-; auto|injection H as <-; auto].
    destruct st; [injection H as <-; auto|injection H as <-; auto|]. destruct (st_send _ _ _ _) as [s1|] eqn:Es; [|discriminate H]. apply st_send_spec in Es. destruct Es as (b & -> & _). injection H as <-. auto. }
  induction l as [|[k r] l IH]; intros s s' H; cbn in H; [injection H as <-; auto|]. destruct (execute_wd_if r s) as [s1|] eqn:E; [|discriminate H].
  destruct (IH _ _ H) as (-> & ->). unfold execute_wd_if in E. destruct (wr_status r); [|injection E as <-; auto|injection E as <-; auto]. unfold execute_wd in E.
  destruct (get_pool _ _) as [p|]; [|discriminate E]. destruct (pl_disabled p); [eauto|]. destruct (get_pair _ _); [|discriminate E]. cbn zeta in E.
  destruct (of_res _); [|discriminate E]. destruct (is_depleted _); [destruct (F _ _ _ _ E) as (-> & ->); auto|].
  destruct (of_res _) as [[x y]|]; [|discriminate E]. destruct (_ && _); [eauto|]. destruct (new_coins _); [|discriminate E]. destruct (new_coins _); [|discriminate E]. destruct (bulk_run _ _) as [b1|]; [|discriminate E].
  destruct (burn _ _); [|discriminate E]. destruct (F _ _ _ _ E) as (-> & ->). destruct (_ =? _); auto.
Qed.

(** ** One order in the batch *)
Section OneOrder.
Variable Q : params -> Prop.
Variable iter : list (nat * Z) -> list (nat * Z).
Hypothesis Hi : is_perm_iter iter.
Variables s s' : state.
Hypothesis R : reach (sane Q) (InBlock, s).
Hypothesis HB : st_height s mod pm_batch_size (st_params s) = 0.
Hypothesis HE : end_block iter s = Some s'.

Lemma batch_time : st_time s' = st_time s /\ exists s1 s2, for_each (fun kv => execute_matching iter (snd kv)) (st_pairs s) s = Some s1 /\
  for_each (fun kv => expire_order (snd kv)) (st_orders s1) s1 = Some s2 /\ st_orders s' = st_orders s2 /\ mics (mkCtl (sane Q) STrade) s s1 /\ inv (mkCtl (sane Q) SReq) s1 /\ st_time s1 = st_time s.
Proof.
  pose proof (batch_requests iter s s' HB HE) as H. unfold execute_requests in H. pose proof (proj1 (okp_st _ STrade _) (reach_okp Q _ R)) as I. cbn [snd] in I.
  destruct (for_each _ (st_pairs s) s) as [s1|] eqn:E1; [|discriminate H].
  destruct (matching_around (mkCtl (sane Q) STrade) iter (st_pairs s) Hi (batch_sane Q) eq_refl s s1 I) as (M1 & T1 & _); [apply msorted_NoDup, (i_pairs_sorted _ (v_str _ _ I))|intros k v X; apply snap_current; [apply (i_pairs_sorted _ (v_str _ _ I))|assumption]|exact E1|].
  pose proof (inv_mics _ _ _ M1 I) as I1. apply (inv_ctl _ SReq) in I1. cbn [allowed] in I1.
  destruct (for_each _ (st_orders s1) s1) as [s2|] eqn:E2; [|discriminate H]. destruct (expire_keeps_reqs _ _ _ E2) as (_ & _ & T2 & _).
  destruct (for_each _ (st_deps s2) s2) as [s3|] eqn:E3; [|discriminate H]. destruct (deps_keep_wds _ _ _ E3) as (_ & T3 & _ & O3). destruct (wds_keep_orders _ _ _ H) as (O4 & T4).
  split; [congruence|]. exists s1, s2. split; [reflexivity|]. split; [exact E2|]. split; [congruence|]. auto.
Qed.

Theorem batch_order i j o : get_order s i j = Some o -> live o = true ->
  exists pr sa o1 o', get_pair s i = Some pr /\ at_matching iter s pr sa /\ st_time sa = st_time s /\ get_order sa i j = Some o /\ matching_fate sa pr o o1 /\
    get_order s' i j = Some o' /\ after_expiry (st_time s) o1 o'.
Proof.
  intros G L. destruct batch_time as (_ & s1 & s2 & E1 & E2 & O2 & M1 & I1 & T1). pose proof (proj1 (okp_st _ STrade _) (reach_okp Q _ R)) as I. cbn [snd] in I.
  destruct (i_orders _ (v_str _ _ I) _ _ G) as (Ek & pr & Gp & _). injection Ek as Ei Ej. unfold get_pair in Gp. rewrite <- Ei in Gp.
  assert (Epr : pr_id pr = i) by exact (get_pair_id _ _ _ (v_str _ _ I) Gp).
  pose proof (i_pairs_sorted _ (v_str _ _ I)) as Sp. pose proof (msorted_NoDup _ Sp) as Np.
  destruct (in_split _ _ (mget_In _ _ _ Gp)) as (l1 & l2 & El).
  assert (Cur : forall k v, In (k, v) (l1 ++ (i, 0, pr) :: l2) -> mget (st_pairs s) k = Some v) by (intros k v X; apply snap_current; [exact Sp|rewrite El; exact X]).
  rewrite El in E1, Np. destruct (for_each_app _ _ _ _ _ E1) as (sa & Ea & Eb). cbn [for_each snd] in Eb. destruct (execute_matching iter pr sa) as [sb|] eqn:Ex; [|discriminate Eb].
  rewrite map_app in Np. cbn [map fst] in Np. pose proof (NoDup_remove_2 _ _ _ Np) as Nin. pose proof (NoDup_remove_1 _ _ _ Np) as Nd.
  assert (N1 : NoDup (map fst l1) /\ NoDup (map fst l2)).
  { clear -Nd. induction (map fst l1) as [|x l IH]; [split; [constructor|exact Nd]|]. cbn [app] in Nd. apply NoDup_cons_iff in Nd. destruct Nd as [A B]. destruct (IH B) as [C D]. split; [constructor; [|exact C]|exact D]. intros X. apply A, in_app_iff. left. exact X. }
  destruct N1 as [N1 N2]. rewrite in_app_iff in Nin.
  destruct (matching_around (mkCtl (sane Q) STrade) iter l1 Hi (batch_sane Q) eq_refl s sa I N1) as (Ma & Ta & _ & Oa & Pa); [intros k v X; apply Cur, in_app_iff; left; exact X|exact Ea|].
  pose proof (inv_mics _ _ _ Ma I) as Ia.
  assert (Gpa : get_pair sa i = Some pr) by (unfold get_pair; rewrite Pa by tauto; exact Gp).
  assert (Ga : get_order sa i j = Some o) by (unfold get_order; rewrite Oa by (cbn [fst]; tauto); exact G).
  rewrite <- Epr in Gpa, Ga. destruct (order_matching (mkCtl (sane Q) STrade) iter pr sa sb j o Hi Ia (batch_sane Q) eq_refl Gpa Ex Ga L) as (o1 & G1 & F1).
  destruct (execute_matching_spec (mkCtl (sane Q) STrade) iter pr sa sb Hi Ia (batch_sane Q) eq_refl Gpa Ex) as (ss & price & hu & ps & _ & _ & Mb & Pb & _ & _ & _ & Tb & _).
  pose proof (inv_mics _ _ _ Mb Ia) as Ib.
  destruct (matching_around (mkCtl (sane Q) STrade) iter l2 Hi (batch_sane Q) eq_refl sb s1 Ib N2) as (_ & _ & _ & Ob & _); [|exact Eb|].
  { intros k v X. rewrite Pb. assert (Nk : k <> (i, 0)) by (intros ->; apply Nin; right; exact (in_map fst _ _ X)). rewrite mget_mset_neq by (rewrite Epr; exact Nk). rewrite Pa; [apply Cur, in_app_iff; right; right; exact X|].
    intros Y. clear -Nd X Y. revert Nd. induction (map fst l1) as [|x l IH]; [destruct Y|]. cbn [app]. intros Nd. apply NoDup_cons_iff in Nd. destruct Nd as [A B]. destruct Y as [->|Y]; [|exact (IH Y B)]. apply A, in_app_iff. right. exact (in_map fst _ _ X). }
  rewrite Epr in *.
  assert (G1' : get_order s1 i j = Some o1) by (unfold get_order; rewrite Ob by (cbn [fst]; tauto); exact G1).
  pose proof (i_orders_sorted _ (v_str _ _ I1)) as So.
  destruct (expire_loop (mkCtl (sane Q) SReq) (st_orders s1) (or_intror eq_refl) s1 s2 I1 (msorted_NoDup _ So)) as (A & _); [intros k v X; apply snap_current; assumption|exact E2|].
  destruct (A _ _ (mget_In _ _ _ G1')) as (o' & Go' & Ae). rewrite T1 in Ae.
  exists pr, sa, o1, o'. split; [exact Gp|]. split; [exists l1, l2; rewrite Epr; auto|]. split; [exact Ta|]. split; [exact Ga|]. split; [exact F1|]. split; [unfold get_order; rewrite O2; exact Go'|exact Ae].
Qed.

(** No live order has expired or is too small after the batch. *)
Theorem batch_no_expired i j o' : get_order s' i j = Some o' -> live o' = true -> ~ must_end (st_time s) o'.
Proof.
  intros G L. destruct batch_time as (_ & s1 & s2 & E1 & E2 & O2 & M1 & I1 & T1).
  pose proof (i_orders_sorted _ (v_str _ _ I1)) as So.
  destruct (expire_loop (mkCtl (sane Q) SReq) (st_orders s1) (or_intror eq_refl) s1 s2 I1 (msorted_NoDup _ So)) as (A & B); [intros k v X; apply snap_current; assumption|exact E2|].
  unfold get_order in G. rewrite O2 in G. destruct (mget (st_orders s1) (i, j)) as [o|] eqn:Go.
  - destruct (A _ _ (mget_In _ _ _ Go)) as (o2 & Go' & Ae). rewrite G in Go'. injection Go' as <-. rewrite T1 in Ae. destruct Ae as [[-> X]|(_ & _ & ->)]; [exact (X L)|discriminate L].
  - exfalso. rewrite B in G; [rewrite Go in G; discriminate G|]. intros X. apply in_map_iff in X. destruct X as ([k v] & Ekv & X). cbn in Ekv. subst k. rewrite (snap_current _ _ _ So X) in Go. discriminate Go.
Qed.
End OneOrder.
