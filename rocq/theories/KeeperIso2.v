(** Independence of pairs: the stages of the batch. *)
From Verif Require Import Base Dec OrderModel MatchModel PoolModel KeeperModel KeeperLib KeeperMicro KeeperBank MatchSpec MatchProofs OrderProofs MatchTop KeeperOrders KeeperReqs KeeperTrade KeeperSpec KeeperInv GenesisProofs IsoSpec KeeperIso.

Section Iso2.
Variable i : Z.
Variable P : Z -> bool.
Variable Cp : Prop.
Notation mkt := (mkt i P).
Notation wst := (wst i P Cp).

Lemma wst_str s : str s -> (Cp -> forall n p, get_pool s n = Some p -> (P n = true <-> pl_pair p = i)) -> ~ own i P (pm_dust_collector (st_params s)) -> wst s.
Proof.
  intros S H D. constructor; [| | | |exact D].
  - intros n p G. destruct (i_pairs _ S _ _ G) as (E & _). injection E as ->. reflexivity.
  - intros n p G. split; [|intros HC; exact (H HC n p G)]. destruct (i_pools _ S _ _ G) as (E & _). injection E as ->. reflexivity.
  - intros j n u X. destruct u. apply (i_plidx _ S). apply mget_iff; [apply (i_plidx_sorted _ S)|exact X].
  - intros a b o G. destruct (i_orders _ S _ _ G) as (E & pr & _ & Ok). injection E as -> ->. split; [reflexivity|]. split; [reflexivity|]. apply Ok.
Qed.
Lemma w_users s j : str s -> wst s -> users j (mprefix (st_orders s) j).
Proof.
  intros S W. apply Forall_forall. intros [[a b] o] X. apply mprefix_In in X. destruct X as [X Ea]. cbn in Ea. cbn [snd]. subst a. apply (mget_iff _ _ _ (i_orders_sorted _ S)) in X. destruct (w_order _ _ _ _ W _ _ _ X) as (E1 & _ & E2). auto.
Qed.
Lemma prefix_get {V} (m : amap V) j : msorted m -> forall k, mget (mprefix m j) k = if fst k =? j then mget m k else None.
Proof.
  intros S k. unfold mprefix. rewrite mget_filter by (apply msorted_NoDup; exact S). cbn [fst]. destruct (fst k =? j); destruct (mget m k); reflexivity.
Qed.
Lemma prefix_same {V} (m m' : amap V) j : msorted m -> msorted m' -> (forall n, mget m (j, n) = mget m' (j, n)) -> mprefix m j = mprefix m' j.
Proof.
  intros S S' H. apply msorted_ext; [apply msorted_filter; exact S|apply msorted_filter; exact S'|]. intros [a b]. rewrite !prefix_get by assumption. cbn [fst]. destruct (Z.eqb_spec a j) as [->|]; [apply H|reflexivity].
Qed.
Lemma orders_same s1 s2 : str s1 -> str s2 -> mkt s1 s2 -> mprefix (st_orders s1) i = mprefix (st_orders s2) i.
Proof. intros S1 S2 M. apply prefix_same; [apply (i_orders_sorted _ S1)|apply (i_orders_sorted _ S2)|apply (m_orders _ _ _ _ M)]. Qed.
Lemma plidx_iff s n : Cp -> str s -> wst s -> mget (st_plidx s) (i, n) = Some tt <-> P n = true /\ get_pool s n <> None.
Proof.
  intros HC S W. split.
  - intros G. destruct (i_plidx _ S _ _ G) as (p & Gp & E). split; [apply (w_pool _ _ _ _ W _ _ Gp); [exact HC|exact E]|congruence].
  - intros [Pn G]. destruct (get_pool s n) as [p|] eqn:Gp; [|congruence]. destruct (w_pool _ _ _ _ W _ _ Gp) as [E1 E2]. destruct (i_pools _ S _ _ Gp) as (_ & _ & _ & _ & _ & X). rewrite E1, (proj1 (E2 HC) Pn) in X. exact X.
Qed.
Lemma plidx_same s1 s2 : Cp -> str s1 -> str s2 -> wst s1 -> wst s2 -> mkt s1 s2 -> mprefix (st_plidx s1) i = mprefix (st_plidx s2) i.
Proof.
  intros HC S1 S2 W1 W2 M. apply prefix_same; [apply (i_plidx_sorted _ S1)|apply (i_plidx_sorted _ S2)|]. intros n.
  assert (E : mget (st_plidx s1) (i, n) = Some tt <-> mget (st_plidx s2) (i, n) = Some tt).
  { rewrite (plidx_iff s1 n HC S1 W1), (plidx_iff s2 n HC S2 W2). split; intros [Pn G]; (split; [exact Pn|]); [rewrite <- (m_pools _ _ _ _ M _ Pn)|rewrite (m_pools _ _ _ _ M _ Pn)]; exact G. }
  destruct (mget (st_plidx s1) (i, n)) as [[]|], (mget (st_plidx s2) (i, n)) as [[]|]; try reflexivity; [symmetry; apply E; reflexivity|apply E; reflexivity].
Qed.
Lemma plidx_members s j : Cp -> str s -> wst s -> Forall (fun kv => P (snd (fst kv)) = (j =? i)) (mprefix (st_plidx s) j).
Proof.
  intros HC S W. apply Forall_forall. intros [[a b] u] X. apply mprefix_In in X. destruct X as [X Ea]. cbn in Ea. subst a. cbn [fst snd]. destruct (w_plidx _ _ _ _ W _ _ _ X) as (p & G & E). destruct (w_pool _ _ _ _ W _ _ G) as [_ H]. specialize (H HC).
  destruct (Z.eqb_spec j i) as [->|N]; [apply H; exact E|]. destruct (P b); [|reflexivity]. exfalso. apply N. rewrite <- E. apply H. reflexivity.
Qed.

(** ** matching *)
Lemma matching_w iter pr s s' : str s -> wst s -> execute_matching iter pr s = Some s' -> wst s'.
Proof.
  intros S W H. unfold execute_matching in H. destruct (collect_orders _ s []) as [r1|] eqn:E1; [|discriminate H]. pose proof (collect_orders_w i P Cp _ _ (w_users s _ S W) _ _ _ W E1) as W1.
  destruct (collect_pools _ pr (fst r1)) as [r2|] eqn:E2; [|discriminate H]. pose proof (collect_pools_w i P Cp _ _ _ _ W1 E2) as W2. destruct (kmatch _ _ _ _ _) as [m|]; [|discriminate H]. destruct (snd m) as [[[h2 mp] qd]|].
  - destruct (apply_match _ _ _ _) as [s3|] eqn:E3; [|discriminate H]. injection H as <-. apply w_put_pair. exact (apply_match_w i P Cp _ _ _ _ _ W2 E3).
  - injection H as <-. apply w_put_pair. exact W2.
Qed.
Lemma matching_sim (Q : ctl) iter pr s1 s2 t1 t2 : Cp -> inv Q s1 -> inv Q s2 -> stage_of Q = STrade -> wst s1 -> wst s2 -> mkt s1 s2 -> pr_id pr = i ->
  execute_matching iter pr s1 = Some t1 -> execute_matching iter pr s2 = Some t2 -> mkt t1 t2.
Proof.
  intros HC I1 I2 T W1 W2 M Ei H1 H2. unfold execute_matching in H1, H2. rewrite Ei in H1, H2. pose proof (v_str _ _ I1) as S1. pose proof (v_str _ _ I2) as S2.
  rewrite (orders_same _ _ S1 S2 M) in H1. pose proof (w_users s2 i S2 W2) as U2.
  destruct (collect_orders _ s1 []) as [[a1 g1]|] eqn:A1; [|discriminate H1]. destruct (collect_orders _ s2 []) as [[a2 g2]|] eqn:A2; [|discriminate H2]. cbn [fst snd] in H1, H2.
  destruct (collect_orders_sim i P _ U2 _ _ _ _ _ M A1 A2) as [Ma Eg]. cbn [fst snd] in Ma, Eg. subst g2. pose proof (collect_orders_w i P Cp _ _ U2 _ _ _ W1 A1) as Wa1. pose proof (collect_orders_w i P Cp _ _ U2 _ _ _ W2 A2) as Wa2. cbn [fst] in Wa1, Wa2.
  assert (X : forall s a g, inv Q s -> collect_orders (mprefix (st_orders s) i) s [] = Some (a, g) -> st_plidx a = st_plidx s).
  { intros s a g I E. assert (Nd : NoDup (map fst (mprefix (st_orders s) i))) by (apply msorted_NoDup, msorted_filter, (i_orders_sorted _ (v_str _ _ I))).
    assert (Cur : forall k o, In (k, o) (mprefix (st_orders s) i) -> mget (st_orders s) k = Some o /\ fst k = i).
    { intros k o X. apply mprefix_In in X. destruct X as [X Y]. split; [apply snap_current; [apply (i_orders_sorted _ (v_str _ _ I))|assumption]|exact Y]. }
    destruct (collect_orders_spec Q i _ (or_introl T) s [] a g I Nd Cur (Forall_nil _) (NoDup_nil _) (fun _ _ _ Z => Z) E) as (_ & (_ & _ & R & _) & _). exact R. }
  pose proof (X _ _ _ I2 A2) as P2. rewrite <- (orders_same _ _ S1 S2 M) in A1. pose proof (X _ _ _ I1 A1) as P1. rewrite P1 in H1. rewrite P2 in H2. rewrite (plidx_same _ _ HC S1 S2 W1 W2 M) in H1.
  destruct (collect_pools _ pr a1) as [[b1 q1]|] eqn:B1; [|discriminate H1]. destruct (collect_pools _ pr a2) as [[b2 q2]|] eqn:B2; [|discriminate H2]. cbn [fst snd] in H1, H2.
  assert (F : Forall (fun kv => P (snd (fst kv)) = true) (mprefix (st_plidx s2) i)) by (pose proof (plidx_members s2 i HC S2 W2) as F; rewrite Z.eqb_refl in F; exact F).
  destruct (collect_pools_sim i P Cp pr _ F _ _ _ _ Ma Wa1 Wa2 B1 B2) as [Mb Eq]. cbn [fst snd] in Mb, Eq. subst q2. pose proof (collect_pools_w i P Cp _ _ _ _ Wa1 B1) as Wb1. pose proof (collect_pools_w i P Cp _ _ _ _ Wa2 B2) as Wb2. cbn [fst] in Wb1, Wb2.
  rewrite (m_params _ _ _ _ M) in H1. destruct (kmatch _ _ _ _ _) as [m|]; [|discriminate H1]. destruct (snd m) as [[[h2 mp] qd]|].
  - destruct (apply_match b1 _ _ _) as [c1|] eqn:C1; [|discriminate H1]. destruct (apply_match b2 _ _ _) as [c2|] eqn:C2; [|discriminate H2]. injection H1 as <-. injection H2 as <-. apply mkt_put_pair. exact (apply_match_sim i P Cp _ _ _ _ _ _ _ Ei Mb Wb1 Wb2 C1 C2).
  - injection H1 as <-. injection H2 as <-. apply mkt_put_pair. exact Mb.
Qed.
Lemma matching_fr_gen (Q : ctl) iter pr s s' : (forall s1 r, wst s1 -> st_plidx s1 = st_plidx s -> st_pools s1 = st_pools s -> collect_pools (mprefix (st_plidx s1) (pr_id pr)) pr s1 = Some r -> mkt s1 (fst r) /\ Forall (fun ip => P (fst ip) = false) (snd r)) -> is_perm_iter iter -> inv Q s -> (forall p, Q p -> sane_ratio p) -> stage_of Q = STrade -> get_pair s (pr_id pr) = Some pr -> wst s -> pr_id pr <> i ->
  execute_matching iter pr s = Some s' -> mkt s s'.
Proof.
  intros HP Hi I HQ T Gp W Ni H. pose proof (v_str _ _ I) as S.
  destruct (execute_matching_spec Q iter pr s s' Hi I HQ T Gp H) as (ss & price & hu & ps & MB & _). destruct (mb_collect _ _ _ _ _ MB) as (s1 & C1 & C2).
  unfold execute_matching in H. rewrite C1 in H. cbn [fst snd] in H. rewrite C2 in H. cbn [fst snd] in H.
  pose proof (w_users s (pr_id pr) S W) as U. pose proof (collect_orders_fr i P _ _ Ni U _ _ _ C1) as M1. pose proof (collect_orders_w i P Cp _ _ U _ _ _ W C1) as W1. cbn [fst] in M1, W1.
  assert (Nd : NoDup (map fst (mprefix (st_orders s) (pr_id pr)))) by (apply msorted_NoDup, msorted_filter, (i_orders_sorted _ S)).
  assert (Cur : forall k o, In (k, o) (mprefix (st_orders s) (pr_id pr)) -> mget (st_orders s) k = Some o /\ fst k = pr_id pr).
  { intros k o X. apply mprefix_In in X. destruct X as [X Y]. split; [apply snap_current; [apply (i_orders_sorted _ S)|assumption]|exact Y]. }
  destruct (collect_orders_spec Q _ _ (or_introl T) s [] s1 hu I Nd Cur (Forall_nil _) (NoDup_nil _) (fun _ _ _ Z => Z) C1) as (_ & (_ & R0 & R & _) & _).
  destruct (HP s1 (ss, ps) W1 R R0 C2) as [M2 F2]. pose proof (collect_pools_w i P Cp _ _ _ _ W1 C2) as W2. cbn [fst snd] in M2, F2, W2. pose proof (mkt_trans _ _ _ _ _ M1 M2) as M12.
  assert (Fh : Forall fresh_order hu) by (eapply Forall_impl; [|exact (mb_entries _ _ _ _ _ MB)]; intros o Ho; apply Ho).
  destruct (v_params _ _ I) as [Vp Qp]. unfold valid_params in Vp. rewrite !andb_true_iff in Vp.
  assert (Hprec : 0 <= pm_tick_prec (st_params s)) by lia. assert (Hrat : 0 <= pm_price_ratio (st_params s) < P18) by (split; [lia|apply HQ; assumption]).
  destruct (kmatch iter (st_params s) hu ps (pr_last_price pr)) as [[h1 r]|] eqn:E3; [|discriminate H]. cbn [fst snd] in H.
  destruct (i_pairs _ S _ _ Gp) as (_ & _ & _ & _ & _ & Lp & _).
  destruct (kmatch_facts iter (st_params s) hu ps (pr_last_price pr) h1 r Hprec Hrat Fh (mb_sound _ _ _ _ _ MB) Lp E3) as (po & Eh1 & Fpo & Out & _).
  destruct r as [[[h2 mp] qd]|]; [|injection H as <-; exact (mkt_trans _ _ _ _ _ M12 (fr_put_pair i P _ (mkPair _ _ _ _ _ _) Ni))]. specialize (Out h2 mp qd eq_refl).
  assert (F1 : Forall fresh_order h1) by (rewrite Eh1; apply Forall_app; split; [exact Fh|eapply Forall_impl; [|exact Fpo]; intros o Ho; apply Ho]).
  assert (Wf : Forall wf_order h1) by (eapply Forall_impl; [|exact F1]; exact fresh_wf).
  destruct (match_outcome_orders _ _ _ _ _ Hi Wf Out) as (_ & _ & Fb). destruct (book_ptrs h1) as [_ Rg].
  destruct (apply_match ss pr _ qd) as [s3|] eqn:E4; [|discriminate H]. injection H as <-.
  refine (mkt_trans _ _ _ _ _ (mkt_trans _ _ _ _ _ M12 (apply_match_fr i P Cp _ _ _ _ _ Ni W2 _ E4)) (fr_put_pair i P _ (mkPair _ _ _ _ _ _) Ni)).
  intros o n Ho K. apply in_map_iff in Ho. destruct Ho as (p & <- & Hp). destruct (Fb p (Rg p Hp)) as (fs & X). destruct X as (_ & _ & _ & _ & _ & _ & X & _). rewrite X in K.
  assert (In1 : In (get h1 p) h1) by (apply nth_In; exact (Rg p Hp)). rewrite Eh1 in In1 at 2. apply in_app_iff in In1. destruct In1 as [In1|In1].
  - pose proof (mb_entries _ _ _ _ _ MB) as En. rewrite Forall_forall in En. destruct (En _ In1) as (_ & id & ko & K' & _). rewrite K' in K. discriminate K.
  - rewrite Forall_forall in Fpo. destruct (Fpo _ In1) as (_ & m & K' & Hm). rewrite K' in K. injection K as ->. apply in_map_iff in Hm. destruct Hm as (ip & <- & Hip). rewrite Forall_forall in F2. exact (F2 _ Hip).
Qed.
Lemma matching_fr (Q : ctl) iter pr s s' : Cp -> is_perm_iter iter -> inv Q s -> (forall p, Q p -> sane_ratio p) -> stage_of Q = STrade -> get_pair s (pr_id pr) = Some pr -> wst s -> pr_id pr <> i ->
  execute_matching iter pr s = Some s' -> mkt s s'.
Proof.
  intros HC Hi I HQ T Gp W Ni H. refine (matching_fr_gen Q iter pr s s' _ Hi I HQ T Gp W Ni H). intros s1 r W1 R _ E. refine (collect_pools_fr i P Cp pr _ _ _ _ W1 E).
  rewrite R. pose proof (plidx_members s (pr_id pr) HC (v_str _ _ I) W) as F. destruct (Z.eqb_spec (pr_id pr) i); [congruence|]. exact F.
Qed.
End Iso2.
