(** Batches of one pair do not depend on other pairs: two successful runs from states that agree on a pair. *)
From Verif Require Import Base Dec OrderModel MatchModel PoolModel KeeperModel KeeperLib KeeperMicro IsoSpec.

Section Iso.
Variable i : Z.
Variable P : Z -> bool.
(** Whether [P] are the pools of pair [i]. *)
Variable Cp : Prop.
Definition own (a : addr) : Prop := a = PairEscrow i \/ exists n, a = PoolReserve n /\ P n = true.

(** ** bank *)
Record agree (b1 b2 : bank) : Prop := mkAg { ag_bal : forall a d, own a -> bal b1 a d = bal b2 a d; ag_sup : forall n, P n = true -> supply b1 (PoolCoin n) = supply b2 (PoolCoin n) }.
Lemma agree_refl b : agree b b.
Proof. split; auto. Qed.
Lemma agree_trans a b c : agree a b -> agree b c -> agree a c.
Proof. intros [A1 A2] [B1 B2]. split; intros; [rewrite A1 by assumption; auto|rewrite A2 by assumption; auto]. Qed.
Lemma agree_sym a b : agree a b -> agree b a.
Proof. intros [A1 A2]. split; intros; symmetry; auto. Qed.
Lemma set_bal_agree b1 b2 a d x1 x2 : agree b1 b2 -> (own a -> x1 = x2) -> agree (set_bal b1 a d x1) (set_bal b2 a d x2).
Proof.
  intros [A1 A2] H. split; [|exact A2]. intros a' d' O. unfold set_bal. cbn [bal]. destruct (addr_eqb_spec a' a) as [->|]; cbn [andb]; [|auto]. destruct (denom_eqb d' d); auto.
Qed.
Lemma sub_agree cs : forall b1 b2 a c1 c2, agree b1 b2 -> sub_coins b1 a cs = Some c1 -> sub_coins b2 a cs = Some c2 -> agree c1 c2.
Proof.
  induction cs as [|[d x] cs IH]; intros b1 b2 a c1 c2 A H1 H2; cbn in H1, H2; [congruence|]. destruct (_ <? _) in H1; [discriminate H1|]. destruct (_ <? _) in H2; [discriminate H2|].
  refine (IH _ _ _ _ _ _ H1 H2). apply set_bal_agree; [exact A|]. intros O. rewrite (ag_bal _ _ A) by exact O. reflexivity.
Qed.
Lemma add_agree cs : forall b1 b2 a, agree b1 b2 -> agree (add_coins b1 a cs) (add_coins b2 a cs).
Proof.
  unfold add_coins. induction cs as [|[d x] cs IH]; intros b1 b2 a A; cbn [fold_left fst snd]; [exact A|]. apply IH, set_bal_agree; [exact A|]. intros O. rewrite (ag_bal _ _ A) by exact O. reflexivity.
Qed.
Lemma send_agree b1 b2 f t cs c1 c2 : agree b1 b2 -> send b1 f t cs = Some c1 -> send b2 f t cs = Some c2 -> agree c1 c2.
Proof.
  unfold send. intros A H1 H2. destruct (valid_coins cs); [|discriminate H1]. destruct (sub_coins b1 f cs) as [x1|] eqn:E1; [|discriminate H1]. destruct (sub_coins b2 f cs) as [x2|] eqn:E2; [|discriminate H2].
  injection H1 as <-. injection H2 as <-. apply add_agree. exact (sub_agree _ _ _ _ _ _ A E1 E2).
Qed.
Lemma bulk_agree q : forall b1 b2 c1 c2, agree b1 b2 -> bulk_run b1 q = Some c1 -> bulk_run b2 q = Some c2 -> agree c1 c2.
Proof.
  induction q as [|[[f t] cs] q IH]; intros b1 b2 c1 c2 A H1 H2; cbn in H1, H2; [congruence|]. destruct (send b1 f t cs) as [x1|] eqn:E1; [|discriminate H1]. destruct (send b2 f t cs) as [x2|] eqn:E2; [|discriminate H2].
  exact (IH _ _ _ _ (send_agree _ _ _ _ _ _ _ A E1 E2) H1 H2).
Qed.
Lemma sup_agree cs : forall (g : Z -> Z -> Z) b1 b2, agree b1 b2 -> agree (fold_left (fun b c => set_supply b (fst c) (g (supply b (fst c)) (snd c))) cs b1) (fold_left (fun b c => set_supply b (fst c) (g (supply b (fst c)) (snd c))) cs b2).
Proof.
  intros g. induction cs as [|[d x] cs IH]; intros b1 b2 [A1 A2]; cbn [fold_left fst snd]; [split; assumption|]. apply IH. split; [exact A1|]. intros n Pn. unfold set_supply. cbn [supply].
  destruct (denom_eqb_spec (PoolCoin n) d) as [<-|]; [rewrite A2 by exact Pn; reflexivity|auto].
Qed.
Lemma mint_agree b1 b2 cs : agree b1 b2 -> agree (mint b1 cs) (mint b2 cs).
Proof. intros A. unfold mint. apply (sup_agree cs Z.add), add_agree. exact A. Qed.
Lemma burn_agree b1 b2 cs c1 c2 : agree b1 b2 -> burn b1 cs = Some c1 -> burn b2 cs = Some c2 -> agree c1 c2.
Proof.
  unfold burn. intros A H1 H2. destruct (sub_coins b1 _ cs) as [x1|] eqn:E1; [|discriminate H1]. destruct (sub_coins b2 _ cs) as [x2|] eqn:E2; [|discriminate H2]. injection H1 as <-. injection H2 as <-.
  apply (sup_agree cs Z.sub). exact (sub_agree _ _ _ _ _ _ A E1 E2).
Qed.

(** Transfers between other accounts. *)
Lemma set_bal_frame b a d x : ~ own a -> agree b (set_bal b a d x).
Proof. intros N. split; [|auto]. intros a' d' O. unfold set_bal. cbn [bal]. destruct (addr_eqb_spec a' a) as [->|]; [contradiction|reflexivity]. Qed.
Lemma sub_frame cs : forall b a c, ~ own a -> sub_coins b a cs = Some c -> agree b c.
Proof.
  induction cs as [|[d x] cs IH]; intros b a c N H; cbn in H; [injection H as <-; apply agree_refl|]. destruct (_ <? _); [discriminate H|]. exact (agree_trans _ _ _ (set_bal_frame _ _ _ _ N) (IH _ _ _ N H)).
Qed.
Lemma add_frame cs : forall b a, ~ own a -> agree b (add_coins b a cs).
Proof.
  unfold add_coins. induction cs as [|[d x] cs IH]; intros b a N; cbn [fold_left fst snd]; [apply agree_refl|]. exact (agree_trans _ _ _ (set_bal_frame _ _ _ _ N) (IH _ _ N)).
Qed.
Lemma send_frame b f t cs c : ~ own f -> ~ own t -> send b f t cs = Some c -> agree b c.
Proof.
  unfold send. intros N1 N2 H. destruct (valid_coins cs); [|discriminate H]. destruct (sub_coins b f cs) as [x1|] eqn:E1; [|discriminate H]. injection H as <-. exact (agree_trans _ _ _ (sub_frame _ _ _ _ N1 E1) (add_frame _ _ _ N2)).
Qed.
Definition foreign (q : bulk) : Prop := Forall (fun x => ~ own (fst (fst x)) /\ ~ own (snd (fst x))) q.
Lemma bulk_frame q : forall b c, foreign q -> bulk_run b q = Some c -> agree b c.
Proof.
  induction q as [|[[f t] cs] q IH]; intros b c F H; cbn in H; [injection H as <-; apply agree_refl|]. destruct (send b f t cs) as [x1|] eqn:E1; [|discriminate H]. inversion F as [|? ? [F1 F2] F3]; subst.
  exact (agree_trans _ _ _ (send_frame _ _ _ _ _ F1 F2 E1) (IH _ _ F3 H)).
Qed.
Lemma foreign_merge q f t cs : foreign q -> ~ own f -> ~ own t -> foreign (bulk_merge q f t cs).
Proof.
  unfold foreign. induction q as [|[[f' t'] c] q IH]; intros F N1 N2; cbn [bulk_merge]; [constructor; [split; assumption|constructor]|]. inversion F as [|? ? F1 F2]; subst. destruct (_ && _); constructor; auto.
Qed.
Lemma foreign_queue q f t cs : foreign q -> ~ own f -> ~ own t -> foreign (bulk_queue q f t cs).
Proof. intros. unfold bulk_queue. destruct (_ && _); [apply foreign_merge; assumption|assumption]. Qed.
Lemma sup_frame cs : forall (g : Z -> Z -> Z) b, (forall c n, In c cs -> P n = true -> fst c <> PoolCoin n) -> agree b (fold_left (fun b c => set_supply b (fst c) (g (supply b (fst c)) (snd c))) cs b).
Proof.
  intros g. induction cs as [|[d x] cs IH]; intros b H; cbn [fold_left fst snd]; [apply agree_refl|]. eapply agree_trans; [|apply IH; intros c n X; apply H; right; exact X]. split; [reflexivity|]. intros n Pn. unfold set_supply. cbn [supply].
  destruct (denom_eqb_spec (PoolCoin n) d) as [E|]; [|reflexivity]. exfalso. exact (H (d, x) n (or_introl eq_refl) Pn (eq_sym E)).
Qed.
Lemma not_own_user u : ~ own (User u).
Proof. intros [E|(n & E & _)]; discriminate E. Qed.
Lemma not_own_pair j : j <> i -> ~ own (PairEscrow j).
Proof. intros N [E|(n & E & _)]; [congruence|discriminate E]. Qed.
Lemma not_own_pool n : P n = false -> ~ own (PoolReserve n).
Proof. intros N [E|(m & E & X)]; [discriminate E|]. injection E as ->. congruence. Qed.
Lemma not_own_global : ~ own GlobalEscrow.
Proof. intros [E|(n & E & _)]; discriminate E. Qed.
Lemma not_own_dex : ~ own DexModule.
Proof. intros [E|(n & E & _)]; discriminate E. Qed.

(** ** states *)
Record mkt (s1 s2 : state) : Prop := mkM {
  m_pair : get_pair s1 i = get_pair s2 i;
  m_orders : forall j, mget (st_orders s1) (i, j) = mget (st_orders s2) (i, j);
  m_mm : forall a, st_mm s1 a i = st_mm s2 a i;
  m_pools : forall n, P n = true -> get_pool s1 n = get_pool s2 n;
  m_deps : forall n j, P n = true -> mget (st_deps s1) (n, j) = mget (st_deps s2) (n, j);
  m_wds : forall n j, P n = true -> mget (st_wds s1) (n, j) = mget (st_wds s2) (n, j);
  m_bank : agree (st_bank s1) (st_bank s2);
  m_params : st_params s1 = st_params s2;
  m_time : st_time s1 = st_time s2;
  m_height : st_height s1 = st_height s2
}.
(** What is used of a single state. *)
Record wst (s : state) : Prop := mkW {
  w_pair : forall n p, get_pair s n = Some p -> pr_id p = n;
  w_pool : forall n p, get_pool s n = Some p -> pl_id p = n /\ (Cp -> (P n = true <-> pl_pair p = i));
  w_plidx : forall j n u, In ((j, n), u) (st_plidx s) -> exists p, get_pool s n = Some p /\ pl_pair p = j;
  w_order : forall a b o, get_order s a b = Some o -> ko_pair o = a /\ ko_id o = b /\ exists u, ko_owner o = User u;
  w_dust : ~ own (pm_dust_collector (st_params s))
}.
Lemma mkt_refl s : mkt s s.
Proof. constructor; auto using agree_refl. Qed.
Lemma mkt_trans a b c : mkt a b -> mkt b c -> mkt a c.
Proof.
  intros [A1 A2 A3 A4 A5 A6 A7 A8 A9 A10] [B1 B2 B3 B4 B5 B6 B7 B8 B9 B10]. constructor.
  - congruence.
  - intros j. rewrite A2. apply B2.
  - intros x. rewrite A3. apply B3.
  - intros n Pn. rewrite A4 by assumption. apply B4. assumption.
  - intros n j Pn. rewrite A5 by assumption. apply B5. assumption.
  - intros n j Pn. rewrite A6 by assumption. apply B6. assumption.
  - exact (agree_trans _ _ _ A7 B7).
  - congruence.
  - congruence.
  - congruence.
Qed.
Lemma mkt_sym a b : mkt a b -> mkt b a.
Proof. intros [A1 A2 A3 A4 A5 A6 A7 A8 A9 A10]. constructor; intros; try (symmetry; auto; fail). apply agree_sym. exact A7. Qed.

Lemma mkt_set_bank s1 s2 b1 b2 : mkt s1 s2 -> agree b1 b2 -> mkt (set_bank s1 b1) (set_bank s2 b2).
Proof. intros [] A. constructor; assumption. Qed.
Lemma mkt_put_order s1 s2 o : mkt s1 s2 -> mkt (put_order s1 o) (put_order s2 o).
Proof. intros []. constructor; try assumption. intros j. cbn. rewrite !mget_mset. destruct (key_eqb _ _); [reflexivity|apply m_orders0]. Qed.
Lemma mkt_set_mm s1 s2 a n : mkt s1 s2 -> mkt (set_mm_count s1 a i n) (set_mm_count s2 a i n).
Proof. intros []. constructor; try assumption. intros a'. cbn. destruct (_ && _); [reflexivity|apply m_mm0]. Qed.
Lemma mkt_put_pool s1 s2 p : mkt s1 s2 -> mkt (put_pool s1 p) (put_pool s2 p).
Proof. intros []. constructor; try assumption. intros n Pn. unfold get_pool. cbn. rewrite !mget_mset. destruct (key_eqb _ _); [reflexivity|apply m_pools0; exact Pn]. Qed.
Lemma mkt_put_pair s1 s2 p : mkt s1 s2 -> mkt (put_pair s1 p) (put_pair s2 p).
Proof. intros []. constructor; try assumption. unfold get_pair. cbn. rewrite !mget_mset. destruct (key_eqb _ _); [reflexivity|apply m_pair0]. Qed.
Lemma mkt_put_dep s1 s2 r : mkt s1 s2 -> mkt (put_dep s1 r) (put_dep s2 r).
Proof. intros []. constructor; try assumption. intros n j Pn. cbn. rewrite !mget_mset. destruct (key_eqb _ _); [reflexivity|apply m_deps0; exact Pn]. Qed.
Lemma mkt_put_wd s1 s2 r : mkt s1 s2 -> mkt (put_wd s1 r) (put_wd s2 r).
Proof. intros []. constructor; try assumption. intros n j Pn. cbn. rewrite !mget_mset. destruct (key_eqb _ _); [reflexivity|apply m_wds0; exact Pn]. Qed.

Lemma fr_set_bank s b : agree (st_bank s) b -> mkt s (set_bank s b).
Proof. intros A. constructor; auto. Qed.
Lemma fr_put_order s o : ko_pair o <> i -> mkt s (put_order s o).
Proof. intros N. constructor; auto using agree_refl. intros j. cbn. rewrite mget_mset_neq by congruence. reflexivity. Qed.
Lemma fr_set_mm s a j n : j <> i -> mkt s (set_mm_count s a j n).
Proof. intros N. constructor; auto using agree_refl. intros a'. cbn. destruct (Z.eqb_spec i j); [congruence|]. rewrite andb_false_r. reflexivity. Qed.
Lemma fr_put_pool s p : P (pl_id p) = false -> mkt s (put_pool s p).
Proof. intros N. constructor; auto using agree_refl. intros n Pn. unfold get_pool. cbn. rewrite mget_mset_neq by congruence. reflexivity. Qed.
Lemma fr_put_pair s p : pr_id p <> i -> mkt s (put_pair s p).
Proof. intros N. constructor; auto using agree_refl. unfold get_pair. cbn. rewrite mget_mset_neq by congruence. reflexivity. Qed.
Lemma fr_put_dep s r : P (dr_pool r) = false -> mkt s (put_dep s r).
Proof. intros N. constructor; auto using agree_refl. intros n j Pn. cbn. rewrite mget_mset_neq by congruence. reflexivity. Qed.
Lemma fr_put_wd s r : P (wr_pool r) = false -> mkt s (put_wd s r).
Proof. intros N. constructor; auto using agree_refl. intros n j Pn. cbn. rewrite mget_mset_neq by congruence. reflexivity. Qed.

Lemma w_set_bank s b : wst s -> wst (set_bank s b).
Proof. intros []. constructor; assumption. Qed.
Lemma w_set_mm s a j n : wst s -> wst (set_mm_count s a j n).
Proof. intros []. constructor; assumption. Qed.
Lemma w_put_order s o u : wst s -> ko_owner o = User u -> wst (put_order s o).
Proof.
  intros [] O. constructor; try assumption. intros a b o' G. unfold get_order in G. cbn in G. rewrite mget_mset in G. destruct (key_eqb_spec (a, b) (ko_pair o, ko_id o)) as [E|]; [|exact (w_order0 _ _ _ G)].
  injection G as <-. injection E as <- <-. eauto.
Qed.
Lemma w_put_pool s p p' : wst s -> get_pool s (pl_id p) = Some p -> pl_id p' = pl_id p -> pl_pair p' = pl_pair p -> wst (put_pool s p').
Proof.
  intros [] G E1 E2. constructor; try assumption.
  - intros n q X. unfold get_pool in X. cbn in X. rewrite mget_mset in X. destruct (key_eqb_spec (n, 0) (pl_id p', 0)) as [E|]; [|exact (w_pool0 _ _ X)]. injection X as <-. injection E as ->. split; [reflexivity|]. rewrite E1, E2. apply (w_pool0 _ _ G).
  - intros j n u X. destruct (w_plidx0 j n u X) as (q & Gq & Eq). unfold get_pool. cbn. rewrite mget_mset. destruct (key_eqb_spec (n, 0) (pl_id p', 0)) as [E|]; [|exists q; auto]. injection E as ->. exists p'. split; [reflexivity|]. rewrite E1 in Gq. congruence.
Qed.
Lemma w_put_pair s p : wst s -> wst (put_pair s p).
Proof.
  intros []. constructor; try assumption. intros n q X. unfold get_pair in X. cbn in X. rewrite mget_mset in X. destruct (key_eqb_spec (n, 0) (pr_id p, 0)) as [E|]; [|exact (w_pair0 _ _ X)]. injection X as <-. injection E as ->. reflexivity.
Qed.
Lemma w_put_dep s r : wst s -> wst (put_dep s r).
Proof. intros []. constructor; assumption. Qed.
Lemma w_put_wd s r : wst s -> wst (put_wd s r).
Proof. intros []. constructor; assumption. Qed.

(** ** finishing orders *)
Lemma finish_w s o st s' u : wst s -> ko_owner o = User u -> finish_order s o st = Some s' -> wst s'.
Proof.
  intros W O H. unfold finish_order in H. destruct (o_terminal _); [injection H as <-; exact W|]. cbv zeta in H.
  assert (X : forall s1, (if 0 <? ko_remaining o then do _ <- get_pair s (ko_pair o); st_send s (PairEscrow (ko_pair o)) (ko_owner o) [(ko_offer_denom o, ko_remaining o)] else Some s) = Some s1 -> wst s1).
  { intros s1 E. destruct (_ <? _); [|injection E as <-; exact W]. destruct (get_pair _ _); [|discriminate E]. apply st_send_spec in E. destruct E as (b & -> & _). apply w_set_bank. exact W. }
  destruct (if 0 <? ko_remaining o then _ else _) as [s1|]; [|discriminate H]. specialize (X s1 eq_refl). injection H as <-. destruct (ko_type o); try apply w_set_mm; apply (w_put_order _ _ u); assumption.
Qed.
Lemma finish_sim s1 s2 o st t1 t2 : mkt s1 s2 -> ko_pair o = i -> finish_order s1 o st = Some t1 -> finish_order s2 o st = Some t2 -> mkt t1 t2.
Proof.
  intros M Ep H1 H2. unfold finish_order in H1, H2. destruct (o_terminal _); [congruence|]. cbv zeta in H1, H2. rewrite Ep in H1, H2.
  destruct (0 <? ko_remaining o).
  - destruct (get_pair s1 i); [|discriminate H1]. destruct (get_pair s2 i); [|discriminate H2]. destruct (st_send s1 _ _ _) as [u1|] eqn:E1; [|discriminate H1]. destruct (st_send s2 _ _ _) as [u2|] eqn:E2; [|discriminate H2].
    apply st_send_spec in E1. apply st_send_spec in E2. destruct E1 as (b1 & -> & E1). destruct E2 as (b2 & -> & E2). pose proof (mkt_set_bank _ _ _ _ M (send_agree _ _ _ _ _ _ _ (m_bank _ _ M) E1 E2)) as M'.
    injection H1 as <-. injection H2 as <-. destruct (ko_type o); try (apply mkt_put_order; exact M'). cbn [st_mm set_bank put_order set_orders]. rewrite (m_mm _ _ M). apply mkt_set_mm, mkt_put_order. exact M'.
  - injection H1 as <-. injection H2 as <-. destruct (ko_type o); try (apply mkt_put_order; exact M). cbn [st_mm set_bank put_order set_orders]. rewrite (m_mm _ _ M). apply mkt_set_mm, mkt_put_order. exact M.
Qed.
Lemma finish_fr s o st s' u : ko_pair o <> i -> ko_owner o = User u -> finish_order s o st = Some s' -> mkt s s'.
Proof.
  intros Np Ow H. unfold finish_order in H. destruct (o_terminal _); [injection H as <-; apply mkt_refl|]. cbv zeta in H.
  assert (X : forall s1, (if 0 <? ko_remaining o then do _ <- get_pair s (ko_pair o); st_send s (PairEscrow (ko_pair o)) (ko_owner o) [(ko_offer_denom o, ko_remaining o)] else Some s) = Some s1 -> mkt s s1).
  { intros s1 E. destruct (_ <? _); [|injection E as <-; apply mkt_refl]. destruct (get_pair _ _); [|discriminate E]. apply st_send_spec in E. destruct E as (b & -> & E). apply fr_set_bank. apply (send_frame _ _ _ _ _ (not_own_pair _ Np)) in E; [exact E|rewrite Ow; apply not_own_user]. }
  destruct (if 0 <? ko_remaining o then _ else _) as [s1|]; [|discriminate H]. specialize (X s1 eq_refl). injection H as <-. apply (mkt_trans _ _ _ X). pose proof (fr_put_order s1 (ko_with_status o st) Np) as Y.
  destruct (ko_type o); try exact Y. exact (mkt_trans _ _ _ Y (fr_set_mm _ _ _ _ Np)).
Qed.

(** ** collecting orders *)
Definition users (j : Z) (l : list (key * korder)) : Prop := Forall (fun kv => ko_pair (snd kv) = j /\ exists u, ko_owner (snd kv) = User u) l.
Definition collect_step (o : korder) (s : state) : state := match ko_status o with ONotExecuted => put_order s (ko_with_status o ONotMatched) | _ => s end.
Lemma collect_step_sim o s1 s2 : mkt s1 s2 -> mkt (collect_step o s1) (collect_step o s2).
Proof. intros M. unfold collect_step. destruct (ko_status o); try exact M. apply mkt_put_order. exact M. Qed.
Lemma collect_step_fr o s : ko_pair o <> i -> mkt s (collect_step o s).
Proof. intros N. unfold collect_step. destruct (ko_status o); try apply mkt_refl. apply fr_put_order. exact N. Qed.
Lemma collect_step_w o s u : wst s -> ko_owner o = User u -> wst (collect_step o s).
Proof. intros W O. unfold collect_step. destruct (ko_status o); try exact W. apply (w_put_order _ _ u W). exact O. Qed.

Lemma collect_orders_w j l : users j l -> forall s h r, wst s -> collect_orders l s h = Some r -> wst (fst r).
Proof.
  induction l as [|[k o] l IH]; intros U s h r W H; cbn [collect_orders] in H; [injection H as <-; exact W|]. inversion U as [|? ? [Ep (u & Ou)] U2]; subst. cbn [snd] in *.
  destruct (o_terminal _); [exact (IH U2 _ _ _ W H)|]. match type of H with (if ?e then _ else _) = _ => destruct e end.
  - destruct (finish_order s o OExpired) as [s1|] eqn:E; [|discriminate H]. exact (IH U2 _ _ _ (finish_w _ _ _ _ _ W Ou E) H).
  - destruct (of_res _) as [uo|]; [|discriminate H]. exact (IH U2 _ _ _ (collect_step_w o s u W Ou) H).
Qed.
Lemma collect_orders_sim l : users i l -> forall s1 s2 h r1 r2, mkt s1 s2 -> collect_orders l s1 h = Some r1 -> collect_orders l s2 h = Some r2 -> mkt (fst r1) (fst r2) /\ snd r1 = snd r2.
Proof.
  induction l as [|[k o] l IH]; intros U s1 s2 h r1 r2 M H1 H2; cbn [collect_orders] in H1, H2; [injection H1 as <-; injection H2 as <-; auto|]. inversion U as [|? ? [Ep (u & Ou)] U2]; subst. cbn [snd] in *.
  destruct (o_terminal _); [exact (IH U2 _ _ _ _ _ M H1 H2)|]. rewrite (m_time _ _ M) in H1. match type of H1 with (if ?e then _ else _) = _ => destruct e end.
  - destruct (finish_order s1 o OExpired) as [t1|] eqn:E1; [|discriminate H1]. destruct (finish_order s2 o OExpired) as [t2|] eqn:E2; [|discriminate H2]. exact (IH U2 _ _ _ _ _ (finish_sim _ _ _ _ _ _ M Ep E1 E2) H1 H2).
  - destruct (of_res _) as [uo|]; [|discriminate H1]. exact (IH U2 _ _ _ _ _ (collect_step_sim o _ _ M) H1 H2).
Qed.
Lemma collect_orders_fr j l : j <> i -> users j l -> forall s h r, collect_orders l s h = Some r -> mkt s (fst r).
Proof.
  intros Nj. induction l as [|[k o] l IH]; intros U s h r H; cbn [collect_orders] in H; [injection H as <-; apply mkt_refl|]. inversion U as [|? ? [Ep (u & Ou)] U2]; subst. cbn [snd] in *.
  destruct (o_terminal _); [exact (IH U2 _ _ _ H)|]. match type of H with (if ?e then _ else _) = _ => destruct e end.
  - destruct (finish_order s o OExpired) as [s1|] eqn:E; [|discriminate H]. exact (mkt_trans _ _ _ (finish_fr _ _ _ _ _ Nj Ou E) (IH U2 _ _ _ H)).
  - destruct (of_res _) as [uo|]; [|discriminate H]. exact (mkt_trans _ _ _ (collect_step_fr o s Nj) (IH U2 _ _ _ H)).
Qed.

(** ** collecting pools *)
Lemma mark_w s p : wst s -> get_pool s (pl_id p) = Some p -> wst (mark_disabled s p).
Proof. intros W G. apply (w_put_pool s p _ W G); reflexivity. Qed.
Lemma pool_data s1 s2 p pr : mkt s1 s2 -> P (pl_id p) = true -> pool_rx s1 p pr = pool_rx s2 p pr /\ pool_ry s1 p pr = pool_ry s2 p pr /\ pool_ps s1 p = pool_ps s2 p.
Proof.
  intros M Pp. unfold pool_rx, pool_ry, pool_ps. assert (O : own (PoolReserve (pl_id p))) by (right; eauto). rewrite !(ag_bal _ _ (m_bank _ _ M)) by exact O. rewrite (ag_sup _ _ (m_bank _ _ M)) by exact Pp. auto.
Qed.
Lemma collect_pools_w pr l : forall s r, wst s -> collect_pools l pr s = Some r -> wst (fst r).
Proof.
  induction l as [|[k u] l IH]; intros s r W H; cbn [collect_pools] in H; [injection H as <-; exact W|]. destruct (get_pool s (snd k)) as [p|] eqn:G; [|discriminate H].
  destruct (w_pool _ W _ _ G) as [Ep _]. destruct (pl_disabled p); [exact (IH _ _ W H)|]. destruct (of_res _) as [ap|]; [|discriminate H]. destruct (is_depleted ap).
  - refine (IH _ _ (mark_w _ _ W _) H). rewrite Ep. exact G.
  - destruct (collect_pools l pr s) as [r1|] eqn:E; [|discriminate H]. injection H as <-. exact (IH _ _ W E).
Qed.
Lemma collect_pools_sim pr l : Forall (fun kv => P (snd (fst kv)) = true) l -> forall s1 s2 r1 r2, mkt s1 s2 -> wst s1 -> wst s2 -> collect_pools l pr s1 = Some r1 -> collect_pools l pr s2 = Some r2 -> mkt (fst r1) (fst r2) /\ snd r1 = snd r2.
Proof.
  induction l as [|[k u] l IH]; intros F s1 s2 r1 r2 M W1 W2 H1 H2; cbn [collect_pools] in H1, H2; [injection H1 as <-; injection H2 as <-; auto|]. inversion F as [|? ? Pk F2]; subst. cbn [fst] in Pk.
  rewrite (m_pools _ _ M _ Pk) in H1. destruct (get_pool s2 (snd k)) as [p|] eqn:G; [|discriminate H1]. destruct (w_pool _ W2 _ _ G) as [Ep _].
  destruct (pl_disabled p); [exact (IH F2 _ _ _ _ M W1 W2 H1 H2)|]. rewrite <- Ep in Pk. destruct (pool_data s1 s2 p pr M Pk) as (E1 & E2 & E3). rewrite E1, E2, E3 in H1.
  destruct (of_res _) as [ap|]; [|discriminate H1]. destruct (is_depleted ap).
  - refine (IH F2 _ _ _ _ _ _ _ H1 H2); [apply mkt_put_pool; exact M| |]; (apply mark_w; [assumption|]); [rewrite (m_pools _ _ M _ Pk), Ep; exact G|rewrite Ep; exact G].
  - destruct (collect_pools l pr s1) as [q1|] eqn:Q1; [|discriminate H1]. destruct (collect_pools l pr s2) as [q2|] eqn:Q2; [|discriminate H2]. injection H1 as <-. injection H2 as <-. destruct (IH F2 _ _ _ _ M W1 W2 Q1 Q2) as [A B]. cbn [fst snd]. rewrite B. auto.
Qed.
Lemma collect_pools_fr pr l : Forall (fun kv => P (snd (fst kv)) = false) l -> forall s r, wst s -> collect_pools l pr s = Some r -> mkt s (fst r) /\ Forall (fun ip => P (fst ip) = false) (snd r).
Proof.
  induction l as [|[k u] l IH]; intros F s r W H; cbn [collect_pools] in H; [injection H as <-; split; [apply mkt_refl|constructor]|]. inversion F as [|? ? Pk F2]; subst. cbn [fst] in Pk.
  destruct (get_pool s (snd k)) as [p|] eqn:G; [|discriminate H]. destruct (w_pool _ W _ _ G) as [Ep _]. destruct (pl_disabled p); [exact (IH F2 _ _ W H)|]. destruct (of_res _) as [ap|]; [|discriminate H]. destruct (is_depleted ap).
  - assert (Wm : wst (mark_disabled s p)) by (apply mark_w; [exact W|rewrite Ep; exact G]). destruct (IH F2 _ _ Wm H) as [A B]. split; [|exact B]. refine (mkt_trans _ _ _ _ A). apply fr_put_pool. cbn [pl_id]. rewrite Ep. exact Pk.
  - destruct (collect_pools l pr s) as [r1|] eqn:E; [|discriminate H]. injection H as <-. destruct (IH F2 _ _ W E) as [A B]. cbn [fst snd]. split; [exact A|constructor; [cbn [fst]; rewrite Ep; exact Pk|exact B]].
Qed.

(** ** applying a match *)
Lemma apply_orders_w pr os : forall s q seen r, wst s -> apply_orders pr os s q seen = Some r -> wst (fst r).
Proof.
  induction os as [|o os IH]; intros s q seen r W H; cbn [apply_orders] in H; [injection H as <-; exact W|]. destruct (is_matched o); [|exact (IH _ _ _ _ W H)]. destruct (o_kind o) as [|id|id]; [discriminate H| |].
  - destruct (get_order s (pr_id pr) id) as [ko|] eqn:G; [|discriminate H]. destruct (w_order _ W _ _ _ G) as (_ & _ & u & Ou). destruct (_ <? _); [discriminate H|]. cbv zeta in H.
    match type of H with match ?e with _ => _ end = _ => destruct e as [s1|] eqn:E; [|discriminate H] end. destruct (new_coins _) as [cs|]; [|discriminate H]. refine (IH _ _ _ _ _ H).
    match type of E with (if ?e then _ else _) = _ => destruct e end; [apply (finish_w _ _ _ _ u W) in E; [exact E|exact Ou]|]. injection E as <-. apply (w_put_order _ _ u W). exact Ou.
  - destruct (new_coins _) as [cs|]; [|discriminate H]. cbv zeta in H. destruct (existsb _ _); [discriminate H|]. exact (IH _ _ _ _ W H).
Qed.
Lemma apply_orders_sim pr os : pr_id pr = i -> forall s1 s2 q seen r1 r2, mkt s1 s2 -> wst s1 -> wst s2 -> apply_orders pr os s1 q seen = Some r1 -> apply_orders pr os s2 q seen = Some r2 -> mkt (fst r1) (fst r2) /\ snd r1 = snd r2.
Proof.
  intros Ei. induction os as [|o os IH]; intros s1 s2 q seen r1 r2 M W1 W2 H1 H2; cbn [apply_orders] in H1, H2; [injection H1 as <-; injection H2 as <-; auto|]. destruct (is_matched o); [|exact (IH _ _ _ _ _ _ M W1 W2 H1 H2)]. destruct (o_kind o) as [|id|id]; [discriminate H1| |].
  - unfold get_order in H1, H2. rewrite Ei in H1, H2. rewrite (m_orders _ _ M) in H1. destruct (mget (st_orders s2) (i, id)) as [ko|] eqn:G; [|discriminate H1]. destruct (w_order _ W2 _ _ _ G) as (Ep & _ & u & Ou). destruct (_ <? _); [discriminate H1|]. cbv zeta in H1, H2.
    match type of H1 with match ?e with _ => _ end = _ => destruct e as [t1|] eqn:E1; [|discriminate H1] end. match type of H2 with match ?e with _ => _ end = _ => destruct e as [t2|] eqn:E2; [|discriminate H2] end.
    destruct (new_coins _) as [cs|]; [|discriminate H1].
    match type of E1 with (if ?e then _ else _) = _ => destruct e end.
    + refine (IH _ _ _ _ _ _ _ _ _ H1 H2); [refine (finish_sim _ _ _ _ _ _ M _ E1 E2); exact Ep|apply (finish_w _ _ _ _ u W1) in E1; [exact E1|exact Ou]|apply (finish_w _ _ _ _ u W2) in E2; [exact E2|exact Ou]].
    + injection E1 as <-. injection E2 as <-. refine (IH _ _ _ _ _ _ _ _ _ H1 H2); [apply mkt_put_order; exact M|apply (w_put_order _ _ u W1); exact Ou|apply (w_put_order _ _ u W2); exact Ou].
  - destruct (new_coins _) as [cs|]; [|discriminate H1]. cbv zeta in H1, H2. destruct (existsb _ _); [discriminate H1|]. exact (IH _ _ _ _ _ _ M W1 W2 H1 H2).
Qed.
Lemma apply_orders_fr pr os : pr_id pr <> i -> (forall o n, In o os -> o_kind o = KPool n -> P n = false) -> forall s q seen r, wst s -> foreign q -> apply_orders pr os s q seen = Some r -> mkt s (fst r) /\ foreign (snd r).
Proof.
  intros Ni. induction os as [|o os IH]; intros K s q seen r W F H; cbn [apply_orders] in H; [injection H as <-; split; [apply mkt_refl|exact F]|].
  assert (K2 : forall o n, In o os -> o_kind o = KPool n -> P n = false) by (intros o' n X; apply K; right; exact X). specialize (IH K2). specialize (K o). 
  destruct (is_matched o); [|exact (IH _ _ _ _ W F H)]. destruct (o_kind o) as [|id|id]; [discriminate H| |].
  - destruct (get_order s (pr_id pr) id) as [ko|] eqn:G; [|discriminate H]. destruct (w_order _ W _ _ _ G) as (Ep & _ & u & Ou). destruct (_ <? _); [discriminate H|]. cbv zeta in H.
    match type of H with match ?e with _ => _ end = _ => destruct e as [s1|] eqn:E; [|discriminate H] end. destruct (new_coins _) as [cs|]; [|discriminate H].
    assert (X : mkt s s1 /\ wst s1).
    { match type of E with (if ?e then _ else _) = _ => destruct e end.
      - split; [refine (finish_fr _ _ _ _ u _ _ E); [cbn; congruence|exact Ou]|apply (finish_w _ _ _ _ u W) in E; [exact E|exact Ou]].
      - injection E as <-. split; [apply fr_put_order; cbn; congruence|apply (w_put_order _ _ u W); exact Ou]. }
    destruct X as [X1 X2]. assert (F2 : foreign (bulk_queue q (PairEscrow (pr_id pr)) (ko_owner ko) cs)) by (apply foreign_queue; [exact F|apply not_own_pair; exact Ni|rewrite Ou; apply not_own_user]).
    destruct (IH _ _ _ _ X2 F2 H) as [A B]. split; [exact (mkt_trans _ _ _ X1 A)|exact B].
  - destruct (new_coins _) as [cs|]; [|discriminate H]. cbv zeta in H. destruct (existsb _ _); [discriminate H|]. refine (IH _ _ _ _ W _ H).
    apply foreign_queue; [exact F|apply not_own_pair; exact Ni|apply not_own_pool; exact (K id (or_introl eq_refl) eq_refl)].
Qed.
Lemma payments_fr pr os : pr_id pr <> i -> (forall o n, In o os -> o_kind o = KPool n -> P n = false) -> forall q r, foreign q -> queue_pool_payments pr os q = Some r -> foreign r.
Proof.
  intros Ni. induction os as [|o os IH]; intros K q r F H; cbn [queue_pool_payments] in H; [injection H as <-; exact F|].
  assert (K2 : forall o n, In o os -> o_kind o = KPool n -> P n = false) by (intros o' n X; apply K; right; exact X). specialize (IH K2). specialize (K o).
  destruct (o_kind o) as [|id|id]; try exact (IH _ _ F H). destruct (is_matched o); [|exact (IH _ _ F H)]. destruct (new_coins _) as [cs|]; [|discriminate H]. refine (IH _ _ _ H).
  apply foreign_queue; [exact F|apply not_own_pool; exact (K id (or_introl eq_refl) eq_refl)|apply not_own_pair; exact Ni].
Qed.
Lemma apply_match_w s pr os qd s' : wst s -> apply_match s pr os qd = Some s' -> wst s'.
Proof.
  intros W H. unfold apply_match in H. destruct (queue_pool_payments pr os []) as [q1|]; [|discriminate H]. destruct (bulk_run (st_bank s) q1) as [b1|]; [|discriminate H].
  destruct (apply_orders pr os (set_bank s b1) [] []) as [r|] eqn:E; [|discriminate H]. destruct (new_coins _) as [dust|]; [|discriminate H]. cbv zeta in H. destruct (bulk_run _ _) as [b2|]; [|discriminate H]. injection H as <-.
  apply w_set_bank. exact (apply_orders_w _ _ _ _ _ _ (w_set_bank _ _ W) E).
Qed.
Lemma apply_match_sim s1 s2 pr os qd t1 t2 : pr_id pr = i -> mkt s1 s2 -> wst s1 -> wst s2 -> apply_match s1 pr os qd = Some t1 -> apply_match s2 pr os qd = Some t2 -> mkt t1 t2.
Proof.
  intros Ei M W1 W2 H1 H2. unfold apply_match in H1, H2. destruct (queue_pool_payments pr os []) as [q1|]; [|discriminate H1]. destruct (bulk_run (st_bank s1) q1) as [b1|] eqn:B1; [|discriminate H1]. destruct (bulk_run (st_bank s2) q1) as [b2|] eqn:B2; [|discriminate H2].
  pose proof (mkt_set_bank _ _ _ _ M (bulk_agree _ _ _ _ _ (m_bank _ _ M) B1 B2)) as Mb.
  destruct (apply_orders pr os (set_bank s1 b1) [] []) as [r1|] eqn:E1; [|discriminate H1]. destruct (apply_orders pr os (set_bank s2 b2) [] []) as [r2|] eqn:E2; [|discriminate H2].
  destruct (apply_orders_sim pr os Ei _ _ _ _ _ _ Mb (w_set_bank _ _ W1) (w_set_bank _ _ W2) E1 E2) as [Mr Er]. destruct (new_coins _) as [dust|]; [|discriminate H1]. cbv zeta in H1, H2. rewrite Er, (m_params _ _ M) in H1.
  destruct (bulk_run (st_bank (fst r1)) _) as [c1|] eqn:C1; [|discriminate H1]. destruct (bulk_run (st_bank (fst r2)) _) as [c2|] eqn:C2; [|discriminate H2]. injection H1 as <-. injection H2 as <-.
  apply mkt_set_bank; [exact Mr|]. exact (bulk_agree _ _ _ _ _ (m_bank _ _ Mr) C1 C2).
Qed.
Lemma apply_match_fr s pr os qd s' : pr_id pr <> i -> wst s -> (forall o n, In o os -> o_kind o = KPool n -> P n = false) -> apply_match s pr os qd = Some s' -> mkt s s'.
Proof.
  intros Ni W K H. unfold apply_match in H. destruct (queue_pool_payments pr os []) as [q1|] eqn:Q1; [|discriminate H]. destruct (bulk_run (st_bank s) q1) as [b1|] eqn:B1; [|discriminate H].
  pose proof (fr_set_bank s b1 (bulk_frame _ _ _ (payments_fr pr os Ni K [] q1 (Forall_nil _) Q1) B1)) as M1.
  destruct (apply_orders pr os (set_bank s b1) [] []) as [r|] eqn:E; [|discriminate H]. destruct (apply_orders_fr pr os Ni K _ _ _ _ (w_set_bank _ _ W) (Forall_nil _) E) as [M2 F2].
  destruct (new_coins _) as [dust|]; [|discriminate H]. cbv zeta in H. destruct (bulk_run (st_bank (fst r)) _) as [b2|] eqn:B2; [|discriminate H]. injection H as <-.
  apply (mkt_trans _ _ _ M1). apply (mkt_trans _ _ _ M2). apply fr_set_bank. refine (bulk_frame _ _ _ _ B2). apply foreign_queue; [exact F2|apply not_own_pair; exact Ni|exact (w_dust _ W)].
Qed.
End Iso.
