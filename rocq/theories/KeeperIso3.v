(** Independence of pairs: requests, and the whole batch. *)
From Verif Require Import Base Dec OrderModel MatchModel MatchProofs PoolModel KeeperModel KeeperLib KeeperMicro KeeperBank KeeperReqs KeeperTrade KeeperSpec KeeperInv GenesisProofs IsoSpec KeeperIso KeeperIso2.

Section Iso3.
Variable i : Z.
Variable P : Z -> bool.
Variable Cp : Prop.
Notation mkt := (mkt i P).
Notation wst := (wst i P Cp).
Notation own := (own i P).
Notation agree := (agree i P).

(** ** expiry *)
Lemma expire_w o s s' u : wst s -> ko_owner o = User u -> expire_order o s = Some s' -> wst s'.
Proof.
  intros W Ou H. unfold expire_order in H. destruct (_ && _); [exact (finish_w i P Cp _ _ _ _ _ W Ou H)|]. destruct (of_res _) as [[]|]; [exact (finish_w i P Cp _ _ _ _ _ W Ou H)| |discriminate H]. injection H as <-. exact W.
Qed.
Lemma expire_sim o s1 s2 t1 t2 : mkt s1 s2 -> ko_pair o = i -> expire_order o s1 = Some t1 -> expire_order o s2 = Some t2 -> mkt t1 t2.
Proof.
  intros M Ep H1 H2. unfold expire_order in H1, H2. rewrite (m_time _ _ _ _ M) in H1. destruct (_ && _); [exact (finish_sim i P _ _ _ _ _ _ M Ep H1 H2)|].
  destruct (of_res _) as [[]|]; [exact (finish_sim i P _ _ _ _ _ _ M Ep H1 H2)| |discriminate H1]. injection H1 as <-. injection H2 as <-. exact M.
Qed.
Lemma expire_fr o s s' u : ko_pair o <> i -> ko_owner o = User u -> expire_order o s = Some s' -> mkt s s'.
Proof.
  intros N Ou H. unfold expire_order in H. destruct (_ && _); [exact (finish_fr i P _ _ _ _ _ N Ou H)|]. destruct (of_res _) as [[]|]; [exact (finish_fr i P _ _ _ _ _ N Ou H)| |discriminate H]. injection H as <-. apply mkt_refl.
Qed.

(** ** deposits *)
Lemma send_fr s f t cs s' : ~ own f -> ~ own t -> st_send s f t cs = Some s' -> mkt s s'.
Proof. intros F T H. apply st_send_spec in H. destruct H as (b & -> & H). apply fr_set_bank. exact (send_frame i P _ _ _ _ _ F T H). Qed.
Lemma send_sim s1 s2 f t cs t1 t2 : mkt s1 s2 -> st_send s1 f t cs = Some t1 -> st_send s2 f t cs = Some t2 -> mkt t1 t2.
Proof. intros M H1 H2. apply st_send_spec in H1. apply st_send_spec in H2. destruct H1 as (b1 & -> & H1). destruct H2 as (b2 & -> & H2). apply mkt_set_bank; [exact M|]. exact (send_agree i P _ _ _ _ _ _ _ (m_bank _ _ _ _ M) H1 H2). Qed.
Lemma send_w s f t cs s' : wst s -> st_send s f t cs = Some s' -> wst s'.
Proof. intros W H. apply st_send_spec in H. destruct H as (b & -> & _). apply w_set_bank. exact W. Qed.
Lemma finish_dep_w s r st s' : wst s -> finish_dep s r st = Some s' -> wst s'.
Proof.
  intros W H. unfold finish_dep in H. destruct (dr_status r); [|injection H as <-; exact W|injection H as <-; exact W]. destruct (coins_sub _ _) as [rf|]; [|discriminate H]. destruct rf as [|c cs]; [injection H as <-; apply w_put_dep; exact W|].
  destruct (st_send _ _ _ _) as [s1|] eqn:E; [|discriminate H]. injection H as <-. apply w_put_dep. exact (send_w _ _ _ _ _ W E).
Qed.
Lemma finish_dep_sim s1 s2 r st t1 t2 : mkt s1 s2 -> finish_dep s1 r st = Some t1 -> finish_dep s2 r st = Some t2 -> mkt t1 t2.
Proof.
  intros M H1 H2. unfold finish_dep in H1, H2. destruct (dr_status r); [|injection H1 as <-; injection H2 as <-; exact M|injection H1 as <-; injection H2 as <-; exact M].
  destruct (coins_sub _ _) as [rf|]; [|discriminate H1]. destruct rf as [|c cs]; [injection H1 as <-; injection H2 as <-; apply mkt_put_dep; exact M|].
  destruct (st_send s1 _ _ _) as [u1|] eqn:E1; [|discriminate H1]. destruct (st_send s2 _ _ _) as [u2|] eqn:E2; [|discriminate H2]. injection H1 as <-. injection H2 as <-. apply mkt_put_dep. exact (send_sim _ _ _ _ _ _ _ M E1 E2).
Qed.
Lemma finish_dep_fr s r st s' u : P (dr_pool r) = false -> dr_owner r = User u -> finish_dep s r st = Some s' -> mkt s s'.
Proof.
  intros N Ou H. unfold finish_dep in H. destruct (dr_status r); [|injection H as <-; apply mkt_refl|injection H as <-; apply mkt_refl]. destruct (coins_sub _ _) as [rf|]; [|discriminate H].
  destruct rf as [|c cs]; [injection H as <-; exact (fr_put_dep i P s (mkDreq _ _ _ _ _ _ _ _) N)|]. destruct (st_send _ _ _ _) as [s1|] eqn:E; [|discriminate H]. injection H as <-.
  refine (mkt_trans _ _ _ _ _ (send_fr _ _ _ _ _ _ _ E) (fr_put_dep i P s1 (mkDreq _ _ _ _ _ _ _ _) N)); [apply not_own_global|rewrite Ou; apply not_own_user].
Qed.
Lemma execute_dep_w s r s' : wst s -> execute_dep s r = Some s' -> wst s'.
Proof.
  intros W H. unfold execute_dep in H. destruct (get_pool s (dr_pool r)) as [p|] eqn:G; [|discriminate H]. destruct (w_pool _ _ _ _ W _ _ G) as [Ep _]. destruct (pl_disabled p); [exact (finish_dep_w _ _ _ _ W H)|].
  destruct (get_pair _ _) as [pr|]; [|discriminate H]. cbv zeta in H. destruct (of_res (amm_pool _ _ _ _)) as [ap|]; [|discriminate H]. destruct (is_depleted ap).
  - refine (finish_dep_w _ _ _ _ (mark_w _ _ _ _ _ W _) H). rewrite Ep. exact G.
  - destruct (of_res (deposit _ _ _ _ _)) as [[[ax ay] pc]|]; [|discriminate H]. destruct (pc =? 0); [exact (finish_dep_w _ _ _ _ W H)|]. destruct (new_coins [_]) as [mt|]; [|discriminate H]. destruct (new_coins _) as [ac|]; [|discriminate H].
    destruct (bulk_run _ _) as [b2|]; [|discriminate H]. exact (finish_dep_w _ _ _ _ (w_set_bank _ _ _ _ _ W) H).
Qed.
Lemma execute_dep_sim s1 s2 r t1 t2 : Cp -> mkt s1 s2 -> wst s1 -> wst s2 -> P (dr_pool r) = true -> execute_dep s1 r = Some t1 -> execute_dep s2 r = Some t2 -> mkt t1 t2.
Proof.
  intros HC M W1 W2 Pr H1 H2. unfold execute_dep in H1, H2. rewrite (m_pools _ _ _ _ M _ Pr) in H1. destruct (get_pool s2 (dr_pool r)) as [p|] eqn:G; [|discriminate H1]. destruct (w_pool _ _ _ _ W2 _ _ G) as [Ep Ei]. apply (Ei HC) in Pr as Ei'. rewrite Ei' in H1, H2.
  destruct (pl_disabled p); [exact (finish_dep_sim _ _ _ _ _ _ M H1 H2)|]. rewrite (m_pair _ _ _ _ M) in H1. destruct (get_pair s2 i) as [pr|]; [|discriminate H1]. cbv zeta in H1, H2.
  assert (Pp : P (pl_id p) = true) by (rewrite Ep; exact Pr). destruct (pool_data i P s1 s2 p pr M Pp) as (E1 & E2 & E3). rewrite E1, E2, E3 in H1.
  destruct (of_res (amm_pool _ _ _ _)) as [ap|]; [|discriminate H1]. destruct (is_depleted ap); [exact (finish_dep_sim _ _ _ _ _ _ (mkt_put_pool i P _ _ _ M) H1 H2)|].
  destruct (of_res (deposit _ _ _ _ _)) as [[[ax ay] pc]|]; [|discriminate H1]. destruct (pc =? 0); [exact (finish_dep_sim _ _ _ _ _ _ M H1 H2)|].
  destruct (new_coins [(PoolCoin _, _)]) as [mt|]; [|discriminate H1]. destruct (new_coins _) as [ac|]; [|discriminate H1].
  destruct (bulk_run (mint (st_bank s1) mt) _) as [b1|] eqn:B1; [|discriminate H1]. destruct (bulk_run (mint (st_bank s2) mt) _) as [b2|] eqn:B2; [|discriminate H2].
  refine (finish_dep_sim _ _ _ _ _ _ _ H1 H2). apply mkt_set_bank; [exact M|]. exact (bulk_agree i P _ _ _ _ _ (mint_agree i P _ _ _ (m_bank _ _ _ _ M)) B1 B2).
Qed.
Lemma execute_dep_fr s r s' u : wst s -> P (dr_pool r) = false -> dr_owner r = User u -> execute_dep s r = Some s' -> mkt s s'.
Proof.
  intros W N Ou H. unfold execute_dep in H. destruct (get_pool s (dr_pool r)) as [p|] eqn:G; [|discriminate H]. destruct (w_pool _ _ _ _ W _ _ G) as [Ep _]. destruct (pl_disabled p); [exact (finish_dep_fr _ _ _ _ _ N Ou H)|].
  destruct (get_pair _ _) as [pr|]; [|discriminate H]. cbv zeta in H. destruct (of_res (amm_pool _ _ _ _)) as [ap|]; [|discriminate H]. assert (Np : P (pl_id p) = false) by (rewrite Ep; exact N). destruct (is_depleted ap).
  - exact (mkt_trans _ _ _ _ _ (fr_put_pool i P s (mkPool _ _ _ _ _ _ _) Np) (finish_dep_fr _ _ _ _ _ N Ou H)).
  - destruct (of_res (deposit _ _ _ _ _)) as [[[ax ay] pc]|]; [|discriminate H]. destruct (pc =? 0); [exact (finish_dep_fr _ _ _ _ _ N Ou H)|]. destruct (new_coins [(PoolCoin _, _)]) as [mt|] eqn:Em; [|discriminate H]. destruct (new_coins [(pr_quote pr, _); _]) as [ac|]; [|discriminate H].
    destruct (bulk_run _ _) as [b2|] eqn:B; [|discriminate H]. assert (A : agree (st_bank s) b2).
    { apply (agree_trans i P _ (mint (st_bank s) mt)).
      - unfold mint. apply (agree_trans i P _ (add_coins (st_bank s) DexModule mt)); [apply add_frame, not_own_dex|]. apply (sup_frame i P mt Z.add). intros c n Hc Pn. destruct (new_coins_one _ _ _ Em) as (_ & _ & _ & _ & ->).
        destruct (pc =? 0); [destruct Hc|]. destruct Hc as [<-|[]]. cbn [fst]. congruence.
      - refine (bulk_frame i P _ _ _ _ B). apply foreign_queue; [apply foreign_queue; [constructor|apply not_own_global|apply not_own_pool; exact Np]|apply not_own_dex|rewrite Ou; apply not_own_user]. }
    exact (mkt_trans _ _ _ _ _ (fr_set_bank i P s b2 A) (finish_dep_fr _ (mkDreq _ _ _ _ _ _ _ _) _ _ u N Ou H)).
Qed.

(** ** withdrawals *)
Lemma finish_wd_w s r st s' : wst s -> finish_wd s r st = Some s' -> wst s'.
Proof.
  intros W H. unfold finish_wd in H. destruct (wr_status r); [|injection H as <-; exact W|injection H as <-; exact W]. destruct st; [injection H as <-; apply w_put_wd; exact W|injection H as <-; apply w_put_wd; exact W|].
  destruct (st_send _ _ _ _) as [s1|] eqn:E; [|discriminate H]. injection H as <-. apply w_put_wd. exact (send_w _ _ _ _ _ W E).
Qed.
Lemma finish_wd_sim s1 s2 r st t1 t2 : mkt s1 s2 -> finish_wd s1 r st = Some t1 -> finish_wd s2 r st = Some t2 -> mkt t1 t2.
Proof.
  intros M H1 H2. unfold finish_wd in H1, H2. destruct (wr_status r); [|injection H1 as <-; injection H2 as <-; exact M|injection H1 as <-; injection H2 as <-; exact M].
  destruct st; [injection H1 as <-; injection H2 as <-; apply mkt_put_wd; exact M|injection H1 as <-; injection H2 as <-; apply mkt_put_wd; exact M|].
  destruct (st_send s1 _ _ _) as [u1|] eqn:E1; [|discriminate H1]. destruct (st_send s2 _ _ _) as [u2|] eqn:E2; [|discriminate H2]. injection H1 as <-. injection H2 as <-. apply mkt_put_wd. exact (send_sim _ _ _ _ _ _ _ M E1 E2).
Qed.
Lemma finish_wd_fr s r st s' u : P (wr_pool r) = false -> wr_owner r = User u -> finish_wd s r st = Some s' -> mkt s s'.
Proof.
  intros N Ou H. unfold finish_wd in H. destruct (wr_status r); [|injection H as <-; apply mkt_refl|injection H as <-; apply mkt_refl].
  destruct st; [injection H as <-; exact (fr_put_wd i P s (mkWreq _ _ _ _ _ _ _ _) N)|injection H as <-; exact (fr_put_wd i P s (mkWreq _ _ _ _ _ _ _ _) N)|].
  destruct (st_send _ _ _ _) as [s1|] eqn:E; [|discriminate H]. injection H as <-.
  refine (mkt_trans _ _ _ _ _ (send_fr _ _ _ _ _ _ _ E) (fr_put_wd i P s1 (mkWreq _ _ _ _ _ _ _ _) N)); [apply not_own_global|rewrite Ou; apply not_own_user].
Qed.
Lemma execute_wd_w s r s' : wst s -> execute_wd s r = Some s' -> wst s'.
Proof.
  intros W H. unfold execute_wd in H. destruct (get_pool s (wr_pool r)) as [p|] eqn:G; [|discriminate H]. destruct (w_pool _ _ _ _ W _ _ G) as [Ep _]. assert (G' : get_pool s (pl_id p) = Some p) by (rewrite Ep; exact G). destruct (pl_disabled p); [exact (finish_wd_w _ _ _ _ W H)|].
  destruct (get_pair _ _) as [pr|]; [|discriminate H]. cbv zeta in H. destruct (of_res (amm_pool _ _ _ _)) as [ap|]; [|discriminate H]. destruct (is_depleted ap); [exact (finish_wd_w _ _ _ _ (mark_w _ _ _ _ _ W G') H)|].
  destruct (of_res (withdraw _ _ _ _ _)) as [[x y]|]; [|discriminate H]. destruct (_ && _); [exact (finish_wd_w _ _ _ _ W H)|]. destruct (new_coins [(pr_quote pr, _); _]) as [wd|]; [|discriminate H]. destruct (new_coins _) as [bn|]; [|discriminate H].
  destruct (bulk_run _ _) as [b1|]; [|discriminate H]. destruct (burn b1 bn) as [b2|]; [|discriminate H]. refine (finish_wd_w _ _ _ _ _ H). destruct (_ =? _); [|apply w_set_bank; exact W]. apply mark_w; [apply w_set_bank; exact W|exact G'].
Qed.
Lemma execute_wd_sim s1 s2 r t1 t2 : Cp -> mkt s1 s2 -> wst s1 -> wst s2 -> P (wr_pool r) = true -> execute_wd s1 r = Some t1 -> execute_wd s2 r = Some t2 -> mkt t1 t2.
Proof.
  intros HC M W1 W2 Pr H1 H2. unfold execute_wd in H1, H2. rewrite (m_pools _ _ _ _ M _ Pr) in H1. destruct (get_pool s2 (wr_pool r)) as [p|] eqn:G; [|discriminate H1]. destruct (w_pool _ _ _ _ W2 _ _ G) as [Ep Ei]. apply (Ei HC) in Pr as Ei'. rewrite Ei' in H1, H2.
  destruct (pl_disabled p); [exact (finish_wd_sim _ _ _ _ _ _ M H1 H2)|]. rewrite (m_pair _ _ _ _ M) in H1. destruct (get_pair s2 i) as [pr|]; [|discriminate H1]. cbv zeta in H1, H2.
  assert (Pp : P (pl_id p) = true) by (rewrite Ep; exact Pr). destruct (pool_data i P s1 s2 p pr M Pp) as (E1 & E2 & E3). rewrite E1, E2, E3, (m_params _ _ _ _ M) in H1.
  destruct (of_res (amm_pool _ _ _ _)) as [ap|]; [|discriminate H1]. destruct (is_depleted ap); [exact (finish_wd_sim _ _ _ _ _ _ (mkt_put_pool i P _ _ _ M) H1 H2)|].
  destruct (of_res (withdraw _ _ _ _ _)) as [[x y]|]; [|discriminate H1]. destruct (_ && _); [exact (finish_wd_sim _ _ _ _ _ _ M H1 H2)|].
  destruct (new_coins [(pr_quote pr, _); _]) as [wd|]; [|discriminate H1]. destruct (new_coins _) as [bn|]; [|discriminate H1].
  destruct (bulk_run (st_bank s1) _) as [b1|] eqn:B1; [|discriminate H1]. destruct (bulk_run (st_bank s2) _) as [b2|] eqn:B2; [|discriminate H2].
  destruct (burn b1 bn) as [c1|] eqn:C1; [|discriminate H1]. destruct (burn b2 bn) as [c2|] eqn:C2; [|discriminate H2].
  pose proof (mkt_set_bank i P _ _ _ _ M (burn_agree i P _ _ _ _ _ (bulk_agree i P _ _ _ _ _ (m_bank _ _ _ _ M) B1 B2) C1 C2)) as M2.
  refine (finish_wd_sim _ _ _ _ _ _ _ H1 H2). destruct (_ =? _); [apply mkt_put_pool; exact M2|exact M2].
Qed.
Lemma execute_wd_fr s r s' u : wst s -> P (wr_pool r) = false -> wr_owner r = User u -> wr_denom r = PoolCoin (wr_pool r) -> execute_wd s r = Some s' -> mkt s s'.
Proof.
  intros W N Ou Ed H. unfold execute_wd in H. destruct (get_pool s (wr_pool r)) as [p|] eqn:G; [|discriminate H]. destruct (w_pool _ _ _ _ W _ _ G) as [Ep _]. destruct (pl_disabled p); [exact (finish_wd_fr _ _ _ _ _ N Ou H)|].
  destruct (get_pair _ _) as [pr|]; [|discriminate H]. cbv zeta in H. destruct (of_res (amm_pool _ _ _ _)) as [ap|]; [|discriminate H]. assert (Np : P (pl_id p) = false) by (rewrite Ep; exact N). destruct (is_depleted ap).
  - exact (mkt_trans _ _ _ _ _ (fr_put_pool i P s (mkPool _ _ _ _ _ _ _) Np) (finish_wd_fr _ _ _ _ _ N Ou H)).
  - destruct (of_res (withdraw _ _ _ _ _)) as [[x y]|]; [|discriminate H]. destruct (_ && _); [exact (finish_wd_fr _ _ _ _ _ N Ou H)|]. destruct (new_coins [(pr_quote pr, _); _]) as [wd|]; [|discriminate H]. destruct (new_coins [(wr_denom r, _)]) as [bn|] eqn:Em; [|discriminate H].
    destruct (bulk_run _ _) as [b1|] eqn:B; [|discriminate H]. destruct (burn b1 bn) as [b2|] eqn:C; [|discriminate H]. assert (A : agree (st_bank s) b2).
    { apply (agree_trans i P _ b1).
      - refine (bulk_frame i P _ _ _ _ B). apply foreign_queue; [apply foreign_queue; [constructor|apply not_own_global|apply not_own_dex]|apply not_own_pool; exact Np|rewrite Ou; apply not_own_user].
      - unfold burn in C. destruct (sub_coins b1 _ bn) as [b3|] eqn:D; [|discriminate C]. injection C as <-. apply (agree_trans i P _ b3); [exact (sub_frame i P _ _ _ _ (not_own_dex i P) D)|]. apply (sup_frame i P bn Z.sub). intros c n Hc Pn.
        destruct (new_coins_one _ _ _ Em) as (_ & _ & _ & _ & ->). destruct (_ =? 0); [destruct Hc|]. destruct Hc as [<-|[]]. cbn [fst]. rewrite Ed. congruence. }
    pose proof (fr_set_bank i P s b2 A) as M1. match type of H with finish_wd ?x _ _ = _ => assert (M2 : mkt s x) end.
    { destruct (_ =? _); [|exact M1]. exact (mkt_trans _ _ _ _ _ M1 (fr_put_pool i P _ (mkPool _ _ _ _ _ _ _) Np)). }
    exact (mkt_trans _ _ _ _ _ M2 (finish_wd_fr _ (mkWreq _ _ _ _ _ _ _ _) _ _ u N Ou H)).
Qed.

(** ** two runs over a stored collection *)
Section Stage.
Context {V : Type}.
Variable Q : ctl.
Variable proj : state -> amap V.
Variable f : V -> state -> option state.
Variable rel : key -> bool.
Definition one : Prop := forall k v s s', inv Q s -> wst s -> mget (proj s) k = Some v -> f v s = Some s' ->
  mics Q s s' /\ (forall k', k' <> k -> mget (proj s') k' = mget (proj s) k') /\ wst s' /\ (rel k = false -> mkt s s').
Definition two : Prop := forall k v s1 s2 t1 t2, rel k = true -> inv Q s1 -> inv Q s2 -> wst s1 -> wst s2 -> mkt s1 s2 -> mget (proj s1) k = Some v -> mget (proj s2) k = Some v ->
  f v s1 = Some t1 -> f v s2 = Some t2 -> mkt t1 t2.
Definition ready (l : list (key * V)) (s : state) : Prop := inv Q s /\ wst s /\ NoDup (map fst l) /\ forall k v, In (k, v) l -> mget (proj s) k = Some v.
Lemma ready_step k v l s s' : one -> ready ((k, v) :: l) s -> f v s = Some s' -> ready l s' /\ (rel k = false -> mkt s s').
Proof.
  intros O (I & W & N & C) H. inversion N as [|? ? N1 N2]; subst. destruct (O k v s s' I W (C _ _ (or_introl eq_refl)) H) as (M & K & W' & F). split; [|exact F]. split; [exact (inv_mics _ _ _ M I)|]. split; [exact W'|]. split; [exact N2|].
  intros k' v' X. rewrite K; [apply C; right; exact X|]. intros ->. apply N1. apply in_map_iff. exists (k, v'). auto.
Qed.
Lemma stage_ready l : one -> forall s s', ready l s -> for_each (fun kv => f (snd kv)) l s = Some s' -> inv Q s' /\ wst s'.
Proof.
  intros O. induction l as [|[k v] l IH]; intros s s' R H; cbn [for_each] in H; [injection H as <-; destruct R as (A & B & _); auto|]. cbn [snd] in H. destruct (f v s) as [s1|] eqn:E; [|discriminate H]. destruct (ready_step _ _ _ _ _ O R E) as [R1 _]. exact (IH _ _ R1 H).
Qed.
Lemma stage_frame l : one -> filter (fun kv => rel (fst kv)) l = [] -> forall s s', ready l s -> for_each (fun kv => f (snd kv)) l s = Some s' -> mkt s s'.
Proof.
  intros O. induction l as [|[k v] l IH]; intros F s s' R H; cbn [for_each] in H; [injection H as <-; apply mkt_refl|]. cbn [snd] in H. cbn [filter fst] in F. destruct (rel k) eqn:Ek; [discriminate F|].
  destruct (f v s) as [s1|] eqn:E; [|discriminate H]. destruct (ready_step _ _ _ _ _ O R E) as [R1 X]. exact (mkt_trans _ _ _ _ _ (X Ek) (IH F _ _ R1 H)).
Qed.
Lemma stage_skip l k v l' : one -> filter (fun kv => rel (fst kv)) l = (k, v) :: l' -> forall s s', ready l s -> for_each (fun kv => f (snd kv)) l s = Some s' ->
  exists r a b, mkt s a /\ rel k = true /\ inv Q a /\ wst a /\ mget (proj a) k = Some v /\ f v a = Some b /\ ready r b /\ filter (fun kv => rel (fst kv)) r = l' /\ for_each (fun kv => f (snd kv)) r b = Some s'.
Proof.
  intros O. induction l as [|[k1 v1] l IH]; intros F s s' R H; cbn [for_each] in H; [discriminate F|]. cbn [snd] in H. cbn [filter fst] in F. destruct (f v1 s) as [s1|] eqn:E; [|discriminate H]. destruct (ready_step _ _ _ _ _ O R E) as [R1 X]. destruct (rel k1) eqn:Ek.
  - injection F as -> -> F. destruct R as (I & W & _ & C). exists l, s, s1. split; [apply mkt_refl|]. split; [exact Ek|]. split; [exact I|]. split; [exact W|]. split; [apply C; left; reflexivity|]. auto.
  - destruct (IH F _ _ R1 H) as (r & a & b & M & Z). exists r, a, b. split; [exact (mkt_trans _ _ _ _ _ (X eq_refl) M)|exact Z].
Qed.
Lemma stage_sim : one -> two -> forall n l1 l2 s1 s2 t1 t2, length (filter (fun kv => rel (fst kv)) l1) = n -> filter (fun kv => rel (fst kv)) l1 = filter (fun kv => rel (fst kv)) l2 -> ready l1 s1 -> ready l2 s2 -> mkt s1 s2 ->
  for_each (fun kv => f (snd kv)) l1 s1 = Some t1 -> for_each (fun kv => f (snd kv)) l2 s2 = Some t2 -> mkt t1 t2.
Proof.
  intros O T. induction n as [|n IH]; intros l1 l2 s1 s2 t1 t2 L F R1 R2 M H1 H2.
  - destruct (filter _ l1) eqn:F1; [|discriminate L]. apply (mkt_trans _ _ _ s1); [apply mkt_sym; exact (stage_frame l1 O F1 _ _ R1 H1)|]. exact (mkt_trans _ _ _ _ _ M (stage_frame l2 O (eq_sym F) _ _ R2 H2)).
  - destruct (filter _ l1) as [|[k v] l'] eqn:F1; [discriminate L|]. destruct (stage_skip _ _ _ _ O F1 _ _ R1 H1) as (r1 & a1 & b1 & M1 & Ek & I1 & W1 & G1 & E1 & Q1 & Z1 & Y1). destruct (stage_skip _ _ _ _ O (eq_sym F) _ _ R2 H2) as (r2 & a2 & b2 & M2 & _ & I2 & W2 & G2 & E2 & Q2 & Z2 & Y2).
    apply (IH r1 r2 b1 b2 t1 t2); [rewrite Z1; cbn in L; congruence|congruence|exact Q1|exact Q2| |exact Y1|exact Y2]. refine (T k v a1 a2 b1 b2 Ek I1 I2 W1 W2 _ G1 G2 E1 E2). exact (mkt_trans _ _ _ _ _ (mkt_sym _ _ _ _ M1) (mkt_trans _ _ _ _ _ M M2)).
Qed.
Lemma stage_whole : one -> two -> forall s1 s2 t1 t2, inv Q s1 -> inv Q s2 -> wst s1 -> wst s2 -> mkt s1 s2 -> msorted (proj s1) -> msorted (proj s2) -> (forall k, rel k = true -> mget (proj s1) k = mget (proj s2) k) ->
  for_each (fun kv => f (snd kv)) (proj s1) s1 = Some t1 -> for_each (fun kv => f (snd kv)) (proj s2) s2 = Some t2 -> mkt t1 t2 /\ inv Q t1 /\ inv Q t2 /\ wst t1 /\ wst t2.
Proof.
  intros O T s1 s2 t1 t2 I1 I2 W1 W2 M S1 S2 G H1 H2.
  assert (R1 : ready (proj s1) s1) by (split; [exact I1|split; [exact W1|split; [apply msorted_NoDup; exact S1|intros k v; apply snap_current; exact S1]]]).
  assert (R2 : ready (proj s2) s2) by (split; [exact I2|split; [exact W2|split; [apply msorted_NoDup; exact S2|intros k v; apply snap_current; exact S2]]]).
  destruct (stage_ready _ O _ _ R1 H1) as [A1 B1]. destruct (stage_ready _ O _ _ R2 H2) as [A2 B2]. split; [|auto].
  refine (stage_sim O T _ (proj s1) (proj s2) s1 s2 t1 t2 eq_refl _ R1 R2 M H1 H2).
  apply msorted_ext; [apply msorted_filter; exact S1|apply msorted_filter; exact S2|]. intros k. rewrite !mget_filter by (apply msorted_NoDup; assumption). cbn [fst]. destruct (rel k) eqn:Ek; [rewrite (G k Ek); reflexivity|]. destruct (mget (proj s1) k), (mget (proj s2) k); reflexivity.
Qed.
End Stage.

(** ** the batch *)
Theorem batch_sim (A : params -> Prop) iter s1 s2 t1 t2 : Cp -> is_perm_iter iter -> (forall p, A p -> sane_ratio p) -> inv (mkCtl A SMsg) s1 -> inv (mkCtl A SMsg) s2 -> wst s1 -> wst s2 -> mkt s1 s2 ->
  end_block iter s1 = Some t1 -> end_block iter s2 = Some t2 -> mkt t1 t2 /\ wst t1 /\ wst t2.
Proof.
  intros HC Hi HQ I1 I2 W1 W2 M H1 H2. unfold end_block in H1, H2. rewrite (m_height _ _ _ _ M), (m_params _ _ _ _ M) in H1. destruct (_ =? 0); [|injection H1 as <-; injection H2 as <-; auto]. unfold execute_requests in H1, H2.
  apply (inv_ctl _ STrade) in I1. apply (inv_ctl _ STrade) in I2. cbn [allowed] in I1, I2.
  destruct (for_each _ (st_pairs s1) s1) as [a1|] eqn:A1; [|discriminate H1]. destruct (for_each _ (st_pairs s2) s2) as [a2|] eqn:A2; [|discriminate H2].
  assert (S1 : mkt a1 a2 /\ inv (mkCtl A STrade) a1 /\ inv (mkCtl A STrade) a2 /\ wst a1 /\ wst a2).
  { refine (stage_whole (mkCtl A STrade) st_pairs (execute_matching iter) (fun k => fst k =? i) _ _ s1 s2 a1 a2 I1 I2 W1 W2 M (i_pairs_sorted _ (v_str _ _ I1)) (i_pairs_sorted _ (v_str _ _ I2)) _ A1 A2).
    - intros k v s s' I W G E. pose proof (pairs_key _ _ _ _ I G) as ->.
      destruct (execute_matching_spec _ iter v s s' Hi I HQ eq_refl G E) as (ss & price & hu & ps & _ & _ & Mi & Pr & _). split; [exact Mi|]. split; [intros k' Nk; rewrite Pr; apply mget_mset_neq; assumption|].
      split; [exact (matching_w i P Cp iter v s s' (v_str _ _ I) W E)|]. cbn [fst]. intros Ne. apply Z.eqb_neq in Ne. exact (matching_fr i P Cp _ iter v s s' HC Hi I HQ eq_refl G W Ne E).
    - intros k v x1 x2 y1 y2 Ek J1 J2 V1 V2 N G1 G2 E1 E2. pose proof (pairs_key _ _ _ _ J1 G1) as ->. apply Z.eqb_eq in Ek. cbn [fst] in Ek. exact (matching_sim i P Cp _ iter v _ _ _ _ HC J1 J2 eq_refl V1 V2 N Ek E1 E2).
    - intros k Ek. apply Z.eqb_eq in Ek. destruct k as [x y]. cbn [fst] in Ek. subst x. destruct (Z.eq_dec y 0) as [->|Ny]; [exact (m_pair _ _ _ _ M)|].
      destruct (mget (st_pairs s1) (i, y)) as [p|] eqn:G1; [pose proof (pairs_key _ _ _ _ I1 G1) as X; congruence|]. destruct (mget (st_pairs s2) (i, y)) as [p|] eqn:G2; [pose proof (pairs_key _ _ _ _ I2 G2) as X; congruence|]. reflexivity. }
  destruct S1 as (Ma & J1 & J2 & Wa1 & Wa2). apply (inv_ctl _ SReq) in J1. apply (inv_ctl _ SReq) in J2. cbn [allowed] in J1, J2.
  destruct (for_each _ (st_orders a1) a1) as [b1|] eqn:B1; [|discriminate H1]. destruct (for_each _ (st_orders a2) a2) as [b2|] eqn:B2; [|discriminate H2].
  assert (S2 : mkt b1 b2 /\ inv (mkCtl A SReq) b1 /\ inv (mkCtl A SReq) b2 /\ wst b1 /\ wst b2).
  { refine (stage_whole (mkCtl A SReq) st_orders expire_order (fun k => fst k =? i) _ _ a1 a2 b1 b2 J1 J2 Wa1 Wa2 Ma (i_orders_sorted _ (v_str _ _ J1)) (i_orders_sorted _ (v_str _ _ J2)) _ B1 B2).
    - intros k v s s' I W G E. destruct (expire_mics (mkCtl A SReq) v k s s' (or_intror eq_refl) I G E) as [Mi O]. split; [exact Mi|]. split; [exact O|]. destruct k as [x y]. destruct (w_order _ _ _ _ W _ _ _ G) as (Ep & _ & u & Ou).
      split; [exact (expire_w v s s' u W Ou E)|]. cbn [fst]. intros Ne. apply Z.eqb_neq in Ne. refine (expire_fr v s s' u _ Ou E). congruence.
    - intros [x y] v x1 x2 y1 y2 Ek _ _ V1 V2 N G1 G2 E1 E2. apply Z.eqb_eq in Ek. cbn [fst] in Ek. destruct (w_order _ _ _ _ V1 _ _ _ G1) as (Ep & _). refine (expire_sim v _ _ _ _ N _ E1 E2). congruence.
    - intros [x y] Ek. apply Z.eqb_eq in Ek. cbn [fst] in Ek. subst x. apply (m_orders _ _ _ _ Ma). }
  destruct S2 as (Mb & K1 & K2 & Wb1 & Wb2).
  destruct (for_each _ (st_deps b1) b1) as [c1|] eqn:C1; [|discriminate H1]. destruct (for_each _ (st_deps b2) b2) as [c2|] eqn:C2; [|discriminate H2].
  assert (S3 : mkt c1 c2 /\ inv (mkCtl A SReq) c1 /\ inv (mkCtl A SReq) c2 /\ wst c1 /\ wst c2).
  { refine (stage_whole (mkCtl A SReq) st_deps execute_dep_if (fun k => P (fst k)) _ _ b1 b2 c1 c2 K1 K2 Wb1 Wb2 Mb (i_deps_sorted _ (v_str _ _ K1)) (i_deps_sorted _ (v_str _ _ K2)) _ C1 C2).
    - intros k v s s' I W G E. destruct (i_deps _ (v_str _ _ I) _ _ G) as (-> & _ & _ & _ & (u & Ou) & _). unfold execute_dep_if in E.
      destruct (dr_status v) eqn:Es; [|injection E as <-; split; [constructor|split; [reflexivity|split; [exact W|intros _; apply mkt_refl]]]|injection E as <-; split; [constructor|split; [reflexivity|split; [exact W|intros _; apply mkt_refl]]]].
      destruct (execute_dep_mics (mkCtl A SReq) v s s' eq_refl I G Es E) as [Mi O]. split; [exact Mi|]. split; [exact O|]. split; [exact (execute_dep_w s v s' W E)|]. cbn [fst]. intros Ne. exact (execute_dep_fr s v s' u W Ne Ou E).
    - intros k v x1 x2 y1 y2 Ek X1 _ V1 V2 N G1 G2 E1 E2. destruct (i_deps _ (v_str _ _ X1) _ _ G1) as (-> & _). cbn [fst] in Ek. unfold execute_dep_if in E1, E2. destruct (dr_status v); [exact (execute_dep_sim _ _ _ _ _ HC N V1 V2 Ek E1 E2)| |]; injection E1 as <-; injection E2 as <-; exact N.
    - intros [x y] Ek. exact (m_deps _ _ _ _ Mb x y Ek). }
  destruct S3 as (Mc & L1 & L2 & Wc1 & Wc2).
  assert (S4 : mkt t1 t2 /\ inv (mkCtl A SReq) t1 /\ inv (mkCtl A SReq) t2 /\ wst t1 /\ wst t2).
  { refine (stage_whole (mkCtl A SReq) st_wds execute_wd_if (fun k => P (fst k)) _ _ c1 c2 t1 t2 L1 L2 Wc1 Wc2 Mc (i_wds_sorted _ (v_str _ _ L1)) (i_wds_sorted _ (v_str _ _ L2)) _ H1 H2).
    - intros k v s s' I W G E. destruct (i_wds _ (v_str _ _ I) _ _ G) as (-> & _ & Ed & _ & (u & Ou)). unfold execute_wd_if in E.
      destruct (wr_status v) eqn:Es; [|injection E as <-; split; [constructor|split; [reflexivity|split; [exact W|intros _; apply mkt_refl]]]|injection E as <-; split; [constructor|split; [reflexivity|split; [exact W|intros _; apply mkt_refl]]]].
      destruct (execute_wd_mics (mkCtl A SReq) v s s' eq_refl I G Es E) as [Mi O]. split; [exact Mi|]. split; [exact O|]. split; [exact (execute_wd_w s v s' W E)|]. cbn [fst]. intros Ne. exact (execute_wd_fr s v s' u W Ne Ou Ed E).
    - intros k v x1 x2 y1 y2 Ek X1 _ V1 V2 N G1 G2 E1 E2. destruct (i_wds _ (v_str _ _ X1) _ _ G1) as (-> & _). cbn [fst] in Ek. unfold execute_wd_if in E1, E2. destruct (wr_status v); [exact (execute_wd_sim _ _ _ _ _ HC N V1 V2 Ek E1 E2)| |]; injection E1 as <-; injection E2 as <-; exact N.
    - intros [x y] Ek. exact (m_wds _ _ _ _ Mc x y Ek). }
  destruct S4 as (Mt & _ & _ & Wt1 & Wt2). auto.
Qed.
End Iso3.
