(** Independence of pairs: messages for other pairs, the begin blocker and the final form. *)
From Verif Require Import Base Dec OrderModel MatchModel MatchProofs PoolModel KeeperModel KeeperLib KeeperMicro KeeperBank KeeperSteps KeeperReqs KeeperTrade KeeperSpec KeeperInv GenesisProofs IsoSpec KeeperIso KeeperIso2 KeeperIso3.

Section Msgs.
Variable i : Z.
Variable P : Z -> bool.
Variable Cp : Prop.
Variable s : state.
Hypothesis S : str s.
Hypothesis PC : plain_collectors (st_params s).
Hypothesis own_wst : wst i P Cp s.
Hypothesis HP : forall m, get_pool s m = None -> P m = false.
Notation mkt := (mkt i P).
Notation own := (own i P).

Lemma plain_not_own a : plain_account a -> ~ own a.
Proof. intros [A B] [E|(n & E & _)]; [exact (A _ E)|exact (B _ E)]. Qed.
Lemma fr_oidx x f : mkt x (set_oidx x f).
Proof. constructor; auto using agree_refl. Qed.
Lemma fr_last_pair x f : mkt x (set_last_pair x f).
Proof. constructor; auto using agree_refl. Qed.
Lemma fr_last_pool x f : mkt x (set_last_pool x f).
Proof. constructor; auto using agree_refl. Qed.
Lemma fr_pidx x f : mkt x (set_pidx x f).
Proof. constructor; auto using agree_refl. Qed.
Lemma fr_plidx x f : mkt x (set_plidx x f).
Proof. constructor; auto using agree_refl. Qed.
Definition members_kept (s' : state) : Prop := forall n, pool_in s' i n = pool_in s i n.
Lemma kept_eq s' : st_pools s' = st_pools s -> members_kept s'.
Proof. intros E n. unfold pool_in, get_pool. rewrite E. reflexivity. Qed.
Lemma send_pools x f t cs x' : st_send x f t cs = Some x' -> st_pools x' = st_pools x.
Proof. intros H. apply st_send_spec in H. destruct H as (b & -> & _). reflexivity. Qed.

Lemma create_pair_fr u b q s' : get_pair s i <> None -> create_pair s u b q = Some s' -> mkt s s' /\ members_kept s'.
Proof.
  intros Gi H. unfold create_pair in H. cbv zeta in H. destruct (match st_pidx s b q with Some _ => _ | None => _ end); [discriminate H|]. destruct (st_send _ _ _ _) as [s1|] eqn:E; [|discriminate H]. injection H as <-.
  pose proof (send_fr i P _ _ _ _ _ (not_own_user i P u) (plain_not_own _ (proj2 PC)) E) as M. split; [|apply kept_eq; exact (send_pools _ _ _ _ _ E)].
  assert (L : st_last_pair s1 = st_last_pair s) by (apply st_send_spec in E; destruct E as (x & -> & _); reflexivity).
  assert (N : st_last_pair s1 + 1 <> i). { destruct (get_pair s i) as [p|] eqn:G; [|congruence]. destruct (i_pairs _ S _ _ G) as (Ek & R & _). injection Ek as ->. rewrite L. lia. }
  apply (mkt_trans _ _ _ _ _ M). apply (mkt_trans _ _ _ _ _ (fr_last_pair s1 (st_last_pair s1 + 1))). apply (mkt_trans _ _ _ _ _ (fr_put_pair i P _ (mkPair (st_last_pair s1 + 1) b q 0 None 1) N)). apply fr_pidx.
Qed.
Lemma create_tail_fr u pr kind ps dc s' : pr_id pr <> i -> create_pool_tail s u pr kind ps dc = Some s' -> mkt s s' /\ members_kept s'.
Proof.
  intros N H. unfold create_pool_tail in H. cbv zeta in H. set (id := st_last_pool s + 1) in *.
  assert (Gn : get_pool s id = None). { destruct (get_pool s id) as [p|] eqn:G; [|reflexivity]. destruct (i_pools _ S _ _ G) as (Ek & R & _). injection Ek as Ek. unfold id in Ek. lia. }
  assert (Pn : P id = false) by exact (HP _ Gn).
  destruct (st_send _ (User u) (PoolReserve id) dc) as [s3|] eqn:E3; [|discriminate H]. destruct (st_send s3 _ _ _) as [s4|] eqn:E4; [|discriminate H]. destruct (new_coins _) as [pc|] eqn:Em; [|discriminate H]. split.
  - match type of E3 with st_send ?x _ _ _ = _ => assert (M0 : mkt s x) end.
    { apply (mkt_trans _ _ _ _ _ (fr_last_pool s id)). apply (mkt_trans _ _ _ _ _ (fr_put_pool i P _ (mkPool id (pr_id pr) kind (User u) 0 0 false) Pn)). apply fr_plidx. }
    apply (mkt_trans _ _ _ _ _ M0). apply (mkt_trans _ _ _ _ _ (send_fr i P _ _ _ _ _ (not_own_user i P u) (not_own_pool i P _ Pn) E3)). apply (mkt_trans _ _ _ _ _ (send_fr i P _ _ _ _ _ (not_own_user i P u) (plain_not_own _ (proj2 PC)) E4)).
    refine (mkt_trans _ _ _ _ _ (fr_set_bank i P s4 (mint (st_bank s4) pc) _) (send_fr i P _ _ _ _ _ (not_own_dex i P) (not_own_user i P u) H)).
    unfold mint. apply (agree_trans i P _ (add_coins (st_bank s4) DexModule pc)); [apply add_frame, not_own_dex|]. apply (sup_frame i P pc Z.add). intros c n Hc Hn. destruct (new_coins_one _ _ _ Em) as (_ & _ & _ & _ & ->).
    destruct (_ =? 0); [destruct Hc|]. destruct Hc as [<-|[]]. cbn [fst]. congruence.
  - intros n. unfold pool_in. pose proof (send_pools _ _ _ _ _ H) as E5. cbn [st_pools set_bank] in E5. unfold get_pool at 1. rewrite E5, (send_pools _ _ _ _ _ E4), (send_pools _ _ _ _ _ E3). cbn [st_pools set_plidx put_pool set_pools set_last_pool pl_id]. rewrite mget_mset.
    destruct (key_eqb_spec (n, 0) (id, 0)) as [Ek|Nk]; [|reflexivity]. injection Ek as ->. rewrite Gn. cbn [pl_pair]. destruct (Z.eqb_spec (pr_id pr) i); congruence.
Qed.
Lemma create_pool_fr u j cs s' : j <> i -> create_pool s u j cs = Some s' -> mkt s s' /\ members_kept s'.
Proof.
  intros N H. unfold create_pool in H. destruct (get_pair s j) as [pr|] eqn:G; [|discriminate H]. destruct (i_pairs _ S _ _ G) as (Ek & _). injection Ek as Ek. destruct (existsb _ _); [discriminate H|]. destruct (existsb _ _); [discriminate H|]. destruct (_ <=? _); [discriminate H|].
  destruct (of_res _) as [[ap|]|]; [|discriminate H|discriminate H]. refine (create_tail_fr _ _ _ _ _ _ _ H). congruence.
Qed.
Lemma create_rpool_fr u j cs a b c s' : j <> i -> create_rpool s u j cs a b c = Some s' -> mkt s s' /\ members_kept s'.
Proof.
  intros N H. unfold create_rpool in H. cbv zeta in H. destruct (of_res _) as [x|]; [|discriminate H]. destruct (of_res _) as [y|] in H; [|discriminate H]. destruct (of_res _) as [z|] in H; [|discriminate H]. destruct (negb _); [discriminate H|].
  destruct (lowest_tick_chk _) as [lt|]; [|discriminate H]. destruct (_ <? _); [discriminate H|]. destruct (get_pair s j) as [pr|] eqn:G; [|discriminate H]. destruct (i_pairs _ S _ _ G) as (Ek & _). injection Ek as Ek. destruct (existsb _ _); [discriminate H|]. destruct (_ <=? _); [discriminate H|].
  destruct (of_res _) as [[ap|]|] in H; [|discriminate H|discriminate H]. destruct (_ && _); [discriminate H|]. destruct (new_coins _) as [dc|]; [|discriminate H]. refine (create_tail_fr _ _ _ _ _ _ _ H). congruence.
Qed.
Lemma deposit_fr u n cs s' : P n = false -> deposit_msg s u n cs = Some s' -> mkt s s' /\ members_kept s'.
Proof.
  intros N H. unfold deposit_msg in H. destruct (get_pool s n) as [p|] eqn:G; [|discriminate H]. destruct (pl_disabled p); [discriminate H|]. destruct (match pl_kind p with PBasic => _ | _ => _ end); [discriminate H|]. destruct (get_pair _ _) as [pr|]; [|discriminate H].
  destruct (existsb _ _); [discriminate H|]. destruct (_ <? _); [discriminate H|]. destruct (_ <? _); [discriminate H|]. destruct (st_send _ _ _ _) as [s1|] eqn:E; [|discriminate H]. cbv zeta in H. injection H as <-.
  assert (Ep : pl_id p = n) by (destruct (i_pools _ S _ _ G) as (Ek & _); injection Ek as <-; reflexivity). assert (Np : P (pl_id p) = false) by (rewrite Ep; exact N). split.
  - apply (mkt_trans _ _ _ _ _ (send_fr i P _ _ _ _ _ (not_own_user i P u) (not_own_global i P) E)). exact (mkt_trans _ _ _ _ _ (fr_put_pool i P _ (mkPool _ _ _ _ _ _ _) Np) (fr_put_dep i P _ (mkDreq _ _ _ _ _ _ _ _) Np)).
  - intros m. unfold pool_in. unfold get_pool at 1. cbn [st_pools put_dep set_deps put_pool set_pools pl_id]. rewrite (send_pools _ _ _ _ _ E), mget_mset. destruct (key_eqb_spec (m, 0) (pl_id p, 0)) as [Ek|Nk]; [|reflexivity]. injection Ek as ->. rewrite Ep, G. reflexivity.
Qed.
Lemma withdraw_fr u n d x s' : P n = false -> withdraw_msg s u n d x = Some s' -> mkt s s' /\ members_kept s'.
Proof.
  intros N H. unfold withdraw_msg in H. destruct (get_pool s n) as [p|] eqn:G; [|discriminate H]. destruct (pl_disabled p); [discriminate H|]. destruct (negb _); [discriminate H|]. destruct (st_send _ _ _ _) as [s1|] eqn:E; [|discriminate H]. cbv zeta in H. injection H as <-.
  assert (Ep : pl_id p = n) by (destruct (i_pools _ S _ _ G) as (Ek & _); injection Ek as <-; reflexivity). assert (Np : P (pl_id p) = false) by (rewrite Ep; exact N). split.
  - apply (mkt_trans _ _ _ _ _ (send_fr i P _ _ _ _ _ (not_own_user i P u) (not_own_global i P) E)). exact (mkt_trans _ _ _ _ _ (fr_put_pool i P _ (mkPool _ _ _ _ _ _ _) Np) (fr_put_wd i P _ (mkWreq _ _ _ _ _ _ _ _) Np)).
  - intros m. unfold pool_in. unfold get_pool at 1. cbn [st_pools put_wd set_wds put_pool set_pools pl_id]. rewrite (send_pools _ _ _ _ _ E), mget_mset. destruct (key_eqb_spec (m, 0) (pl_id p, 0)) as [Ek|Nk]; [|reflexivity]. injection Ek as ->. rewrite Ep, G. reflexivity.
Qed.
Lemma place_fr typ u j d od offer dd price amt l s' : j <> i -> place_order s typ u j d od offer dd price amt l = Some s' -> mkt s s' /\ st_pools s' = st_pools s.
Proof.
  intros N H. destruct (place_order_spec _ _ _ _ _ _ _ _ _ _ _ _ S H) as (pr & rp & s1 & _ & Ej & _ & _ & _ & E & _ & ->). assert (Np : pr_id pr <> i) by congruence. cbv zeta. split; [|exact (send_pools _ _ _ _ _ E)].
  apply (mkt_trans _ _ _ _ _ (send_fr i P _ _ _ _ _ (not_own_user i P u) (not_own_pair i P _ Np) E)). refine (mkt_trans _ _ _ _ _ (fr_put_pair i P _ (mkPair _ _ _ _ _ _) Np) _).
  refine (mkt_trans _ _ _ _ _ (fr_put_order i P _ (mkKOrder _ _ _ _ _ _ _ _ _ _ _ _ _ _ _ _ _) Np) _). apply fr_oidx.
Qed.
Lemma finish_pools x o st x' : finish_order x o st = Some x' -> st_pools x' = st_pools x.
Proof.
  intros H. destruct (live o) eqn:L; [|unfold live in L; apply negb_false_iff in L; unfold finish_order in H; rewrite L in H; injection H as <-; reflexivity].
  destruct (finish_order_spec _ _ _ _ H L) as (b & _ & ->). destruct (ko_type o); reflexivity.
Qed.
Lemma cancel_fr u j n s' : j <> i -> cancel_order s u j n = Some s' -> mkt s s' /\ st_pools s' = st_pools s.
Proof.
  intros N H. unfold cancel_order in H. destruct (get_order s j n) as [o|] eqn:G; [|discriminate H]. destruct (negb _); [discriminate H|]. destruct (match ko_status o with OCanceled => true | _ => false end); [discriminate H|]. cbv zeta in H. destruct (_ =? _); [discriminate H|].
  destruct (w_order _ _ _ _ own_wst _ _ _ G) as (Ep & _ & u' & Ou). split; [refine (finish_fr i P _ _ _ _ u' _ Ou H); congruence|exact (finish_pools _ _ _ _ H)].
Qed.
Lemma cancel_ones_fr ids l : ids <> [] -> existsb (Z.eqb i) ids = false -> forall x x', wst i P Cp x -> for_each (cancel_one ids) l x = Some x' -> mkt x x' /\ st_pools x' = st_pools x.
Proof.
  intros Ne Ni. induction l as [|k l IH]; intros x x' W H; cbn [for_each] in H; [injection H as <-; split; [apply mkt_refl|reflexivity]|].
  destruct (cancel_one ids k x) as [y|] eqn:E; [|discriminate H]. assert (X : mkt x y /\ st_pools y = st_pools x /\ wst i P Cp y).
  { unfold cancel_one in E. destruct k as [a b]. cbn [fst snd] in E. destruct (get_order x a b) as [o|] eqn:G; [|discriminate E]. destruct (w_order _ _ _ _ W _ _ _ G) as (Ep & _ & u & Ou).
    assert (Z0 : forall z, Some x = Some z -> mkt x z /\ st_pools z = st_pools x /\ wst i P Cp z) by (intros z Ez; injection Ez as <-; split; [apply mkt_refl|split; [reflexivity|exact W]]).
    destruct (match ids with [] => true | _ => false end) eqn:Em; [destruct ids; [congruence|discriminate Em]|]. cbn [orb] in E. destruct (existsb (Z.eqb (ko_pair o)) ids) eqn:Ex; [|exact (Z0 _ E)]. cbv zeta in E. destruct (_ && _); [|exact (Z0 _ E)].
    assert (Np : ko_pair o <> i) by (intros Y; rewrite Y in Ex; congruence). split; [exact (finish_fr i P _ _ _ _ u Np Ou E)|]. split; [exact (finish_pools _ _ _ _ E)|exact (finish_w i P Cp _ _ _ _ u W Ou E)]. }
  destruct X as (M1 & E1 & W1). destruct (IH _ _ W1 H) as [M2 E2]. split; [exact (mkt_trans _ _ _ _ _ M1 M2)|congruence].
Qed.
Theorem elsewhere_fr m s' : (forall n, P n = pool_in s i n) -> elsewhere i s m = true -> deliver s m = Some s' -> mkt s s' /\ members_kept s'.
Proof.
  intros EP El H. unfold deliver in H. destruct (validate_basic m); [|discriminate H].
  assert (X : forall s1, mkt s s1 /\ st_pools s1 = st_pools s -> mkt s s1 /\ members_kept s1) by (intros s1 [A B]; split; [exact A|apply kept_eq; exact B]).
  destruct m; cbn [handle elsewhere] in *; try (apply negb_true_iff, Z.eqb_neq in El).
  - refine (create_pair_fr _ _ _ _ _ H). destruct (get_pair s i); [discriminate|discriminate El].
  - exact (create_pool_fr _ _ _ _ El H).
  - exact (create_rpool_fr _ _ _ _ _ _ _ El H).
  - apply negb_true_iff in El. rewrite <- EP in El. exact (deposit_fr _ _ _ _ El H).
  - apply negb_true_iff in El. rewrite <- EP in El. exact (withdraw_fr _ _ _ _ _ El H).
  - apply X. exact (place_fr _ _ _ _ _ _ _ _ _ _ _ El H).
  - apply X. exact (place_fr _ _ _ _ _ _ _ _ _ _ _ El H).
  - unfold mm_order in H. cbv zeta in H. destruct (_ <=? _); [discriminate H|]. destruct (place_order _ _ _ _ _ _ _ _ _ _ _) as [s1|] eqn:E; [|discriminate H]. injection H as <-. destruct (place_fr _ _ _ _ _ _ _ _ _ _ _ El E) as [A B].
    apply X. split; [|exact B]. exact (mkt_trans _ _ _ _ _ A (fr_set_mm i P _ _ _ _ El)).
  - apply X. exact (cancel_fr _ _ _ _ El H).
  - apply andb_true_iff in El. destruct El as [E1 E2]. apply negb_true_iff in E2. unfold cancel_all in H. destruct (existsb _ _) in H; [discriminate H|]. apply X. refine (cancel_ones_fr ids _ _ E2 _ _ own_wst H). intros ->. discriminate E1.
  - discriminate El.
  - apply X. split; [|exact (send_pools _ _ _ _ _ H)]. refine (send_fr i P _ _ _ _ _ (not_own_user i P u) _ H). destruct to; try (intros [Y|(? & Y & _)]; discriminate Y).
    + apply not_own_pair. apply negb_true_iff, Z.eqb_neq in El. exact El.
    + apply not_own_pool. apply negb_true_iff in El. rewrite EP. exact El.
Qed.
End Msgs.

(** ** final form *)
Lemma to_mkt i s1 s2 : same_market i s1 s2 -> mkt i (pool_in s1 i) s1 s2.
Proof.
  intros [A1 A2 A3 A4 A5 A6 A7 A8 A9 A10 A11 A12 A13]. constructor; try assumption. split.
  - intros a d [->|(n & -> & Pn)]; [apply A8|apply A9; exact Pn].
  - exact A10.
Qed.
Lemma of_mkt i P s1 s2 : mkt i P s1 s2 -> (forall n, pool_in s1 i n = P n) -> (forall n, pool_in s2 i n = P n) -> same_market i s1 s2.
Proof.
  intros [A1 A2 A3 A4 A5 A6 [A7 A8] A9 A10 A11] P1 P2. constructor; try assumption.
  - intros n. rewrite P1, P2. reflexivity.
  - intros n. rewrite P1. apply A4.
  - intros n j. rewrite P1. apply A5.
  - intros n j. rewrite P1. apply A6.
  - intros d. apply A7. left. reflexivity.
  - intros n d. rewrite P1. intros Pn. apply A7. right. eauto.
  - intros n. rewrite P1. apply A8.
Qed.
Lemma members_wst i s t1 : wst i (pool_in s i) True t1 -> (forall n, pool_in s i n = true -> get_pool t1 n <> None) -> forall n, pool_in t1 i n = pool_in s i n.
Proof.
  intros W H n. destruct (pool_in s i n) eqn:E.
  - unfold pool_in. destruct (get_pool t1 n) as [p|] eqn:G; [|exfalso; exact (H n E G)]. apply Z.eqb_eq. apply (w_pool _ _ _ _ W _ _ G); [exact Logic.I|exact E].
  - unfold pool_in. destruct (get_pool t1 n) as [p|] eqn:G; [|reflexivity]. apply Z.eqb_neq. intros X. apply (proj2 (w_pool _ _ _ _ W _ _ G) Logic.I) in X. congruence.
Qed.
