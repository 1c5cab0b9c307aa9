(** The end blocker does not depend on the iteration order of Go maps. *)
From Coq Require Import Permutation.
From Verif Require Import Base Dec TickModel TickSpec TickProofs OrderModel MatchModel MatchSpec OrderProofs MatchProofs MatchTop PoolModel PoolProofs PoolOrderProofs
  KeeperModel KeeperLib KeeperSpec KeeperMicro KeeperInv KeeperBank KeeperOrders KeeperSettle KeeperReqs KeeperTrade.

Definition id_iter : list (nat * Z) -> list (nat * Z) := fun l => l.
Lemma id_iter_perm : is_perm_iter id_iter.
Proof. intros l. apply Permutation_refl. Qed.

Lemma kmatch_iter iter prm h ps last : is_perm_iter iter -> 0 <= pm_tick_prec prm -> 0 <= pm_price_ratio prm < P18 -> Forall fresh_order h -> Forall sound_pool ps ->
  (forall p, last = Some p -> 0 < p) -> kmatch iter prm h ps last = kmatch id_iter prm h ps last.
Proof.
  intros Hi Hp Hr Fh Fp Hl. unfold kmatch. cbn zeta.
  assert (W : forall po, Forall (pool_made ps) po -> Forall wf_order (h ++ po)).
  { intros po F. apply Forall_app. split; [exact (Forall_impl _ fresh_wf Fh)|]. eapply Forall_impl; [|exact F]. intros o (Fo & _). exact (fresh_wf _ Fo). }
  destruct last as [last|].
  - specialize (Hl last eq_refl). destruct (price_limits last (pm_price_ratio prm) (pm_tick_prec prm)) as [[lo hi]| |] eqn:El; [|reflexivity|reflexivity].
    cbn [of_res fst snd]. destruct (price_limits_spec _ _ _ _ _ Hp Hl Hr El) as (Tl & Th & _).
    destruct (orders_around lo hi (pm_tick_prec prm) ps) as [po|] eqn:Ep; [|reflexivity].
    rewrite (proj1 (match_iter_indep iter (h ++ po) Hi (W po (orders_around_made _ _ _ _ Hp Tl Th Fp _ Ep))) last). reflexivity.
  - match goal with |- (if ?e then None else _) = _ => destruct e eqn:Ec; [reflexivity|] end.
    destruct (find_match_price _ _) as [mp|] eqn:Ef; [|reflexivity].
    assert (M : 0 < mp).
    { eapply find_match_price_pos; [|exact Ef]. apply andb_false_iff in Ec. destruct Ec as [Ec|Ec]; [exfalso|lia].
      unfold find_match_price in Ef. destruct (ov_highest_buy _) as [hb|]; [|discriminate Ef]. destruct (ov_lowest_sell _) as [ls|]; [|discriminate Ef].
      destruct (Z.ltb_spec hb ls); [discriminate Ef|]. lia. }
    rewrite (proj2 (match_iter_indep iter _ Hi (W _ (orders_at_made mp ps M))) mp). reflexivity.
Qed.

Lemma execute_matching_iter (Q : ctl) iter pr s : is_perm_iter iter -> inv Q s -> (forall p, Q p -> sane_ratio p) -> get_pair s (pr_id pr) = Some pr ->
  execute_matching iter pr s = execute_matching id_iter pr s.
Proof.
  intros Hi I HQ Gp. unfold execute_matching.
  destruct (collect_orders (mprefix (st_orders s) (pr_id pr)) s []) as [[s1 h]|] eqn:E1; [|reflexivity]. cbn [fst snd].
  assert (Pre : NoDup (map fst (mprefix (st_orders s) (pr_id pr)))) by (apply msorted_NoDup, msorted_filter, (i_orders_sorted _ (v_str _ _ I))).
  assert (Cur : forall k o, In (k, o) (mprefix (st_orders s) (pr_id pr)) -> mget (st_orders s) k = Some o /\ fst k = pr_id pr).
  { intros k o X. apply mprefix_In in X. destruct X as [X Y]. split; [apply snap_current; [apply (i_orders_sorted _ (v_str _ _ I))|assumption]|exact Y]. }
  pose proof (proj1 (inv_ctl Q STrade s) I) as IT.
  destruct (collect_orders_spec (mkCtl (allowed Q) STrade) (pr_id pr) _ (or_introl eq_refl) s [] s1 h IT Pre Cur (Forall_nil _) (NoDup_nil _) (fun _ _ _ X => X) E1) as (M1 & _ & En & _).
  pose proof (inv_mics _ _ _ M1 IT) as I1.
  destruct (collect_pools (mprefix (st_plidx s1) (pr_id pr)) pr s1) as [[ss ps]|] eqn:E2; [|reflexivity]. cbn [fst snd].
  destruct (collect_pools_spec (mkCtl (allowed Q) STrade) pr _ (or_introl eq_refl) s1 ss ps I1 E2) as (_ & _ & Sp & _).
  destruct (v_params _ _ I) as [Vp Qp]. pose proof (HQ _ Qp) as Hr. unfold sane_ratio in Hr.
  unfold valid_params in Vp. rewrite !andb_true_iff in Vp. destruct Vp as (((((((((( _ & Vt) & _) & _) & _) & _) & Vr) & _) & _) & _) & _). apply Z.leb_le in Vt, Vr.
  rewrite (kmatch_iter iter (st_params s) h ps (pr_last_price pr) Hi Vt (conj Vr Hr)); [reflexivity| |exact Sp|].
  - eapply Forall_impl; [|exact En]. intros o Ho. apply Ho.
  - intros p El. destruct (i_pairs _ (v_str _ _ I) _ _ Gp) as (_ & _ & _ & _ & _ & X & _). exact (X p El).
Qed.

Lemma matching_loop_iter (Q : ctl) iter l : is_perm_iter iter -> (forall p, Q p -> sane_ratio p) -> stage_of Q = STrade -> forall s, inv Q s ->
  NoDup (map fst l) -> (forall k pr, In (k, pr) l -> mget (st_pairs s) k = Some pr) ->
  for_each (fun kv : key * pair => execute_matching iter (snd kv)) l s = for_each (fun kv : key * pair => execute_matching id_iter (snd kv)) l s.
Proof.
  intros Hi HQ T. induction l as [|[k pr] l IH]; intros s I N C; cbn [for_each]; [reflexivity|].
  cbn [snd]. pose proof (C k pr (or_introl eq_refl)) as G. pose proof (pairs_key Q _ _ _ I G) as ->.
  rewrite (execute_matching_iter Q iter pr s Hi I HQ G). destruct (execute_matching id_iter pr s) as [s1|] eqn:E; [|reflexivity].
  destruct (execute_matching_spec Q id_iter pr s s1 id_iter_perm I HQ T G E) as (ss & price & hu & ps & _ & _ & M & P & _).
  cbn [map] in N. apply NoDup_cons_iff in N. destruct N as [N1 N2]. cbn [fst] in N1.
  apply (IH s1 (inv_mics Q _ _ M I) N2).
  intros k' pr' X. rewrite P. rewrite mget_mset_neq; [apply C; right; exact X|]. intros E0. apply N1. rewrite <- E0. exact (in_map fst _ _ X).
Qed.

Lemma end_block_iter (A : params -> Prop) iter s : is_perm_iter iter -> okp A s -> (forall p, A p -> sane_ratio p) -> end_block iter s = end_block id_iter s.
Proof.
  intros Hi I HQ. unfold end_block. destruct (_ =? 0); [|reflexivity]. unfold execute_requests.
  apply (okp_st A STrade) in I. pose proof (i_pairs_sorted _ (v_str _ _ I)) as So.
  rewrite (matching_loop_iter (mkCtl A STrade) iter (st_pairs s) Hi HQ eq_refl s I (msorted_NoDup _ So)); [reflexivity|].
  intros k pr X. apply snap_current; [exact So|exact X].
Qed.
