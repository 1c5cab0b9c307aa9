(** Properties C35, C43: pair escrows, and the end blocker never failing.  See Props_Keeper.v for [reach (sane Q)]. *)
From Verif Require Import Base Dec OrderModel MatchModel MatchSpec PoolModel KeeperModel KeeperLib KeeperSpec CoverSpec KeeperMicro KeeperBank KeeperTrade KeeperInv KeeperHist KeeperCover MatchProofs KeeperExample.

(** ** C35: the pair escrow covers open orders. *)

(** In every coin but the pair's base coin the escrow always holds what it owes. *)
Theorem C35_quote_side_partial : forall Q c i pr d, reach (sane Q) c -> get_pair (snd c) i = Some pr -> d <> pr_base pr -> covered (snd c) i d.
Proof.
  intros Q c i pr d R Gp Nd. assert (X : 0 <= slack (snd c) i d); [|unfold covered, slack in *; lia].
  apply (slack_quote Q i d c R). intros pr' G'. congruence.
Qed.
Print Assumptions C35_quote_side_partial.

(** In the base coin it does as well, along every history in which no end blocker started with
    something on sale below price one in this pair.  Missing: histories with sales below one, where
    the claim is false ([C35_refuted]). *)
Theorem C35_base_side_partial : forall Q s0 c i d, genesis (sane Q) s0 ->
  runs_where (sane Q) (fun s => sells_above_one s i) (Between, s0) c -> covered (snd c) i d.
Proof. intros Q s0 c i d G R. pose proof (slack_history Q i d s0 c G R). unfold covered, slack in *. lia. Qed.
Print Assumptions C35_base_side_partial.

(** Only an end blocker can make the escrow short, only of base coin, and only by starting with
    something on sale below price one. *)
Theorem C35_only_below_one_partial : forall Q c c' i d, reach (sane Q) c -> step (sane Q) c c' -> covered (snd c) i d -> ~ covered (snd c') i d ->
  exists s s', c = (InBlock, s) /\ c' = (Between, s') /\ ~ sells_above_one s i /\ exists pr, get_pair s i = Some pr /\ d = pr_base pr.
Proof.
  intros Q c c' i d R S C N. pose proof (reach_okp Q c R) as I.
  assert (X : ~ slack (snd c) i d <= slack (snd c') i d) by (unfold covered, slack in *; lia).
  destruct c as [ph s], c' as [ph' s']. destruct ph'; [|exfalso; apply X; apply (step_slack Q (ph, s) (InBlock, s') i d S I); intros pr E; discriminate E].
  inversion S; subst. exists s, s'. split; [reflexivity|]. split; [reflexivity|]. cbn [snd] in *.
  destruct (get_pair s i) as [pr|] eqn:Gp; [|exfalso; apply X; apply (step_slack Q (InBlock, s) (Between, s') i d S I); cbn [snd]; intros pr _ G; congruence].
  destruct (denom_eqb_spec d (pr_base pr)) as [Ed|Nd].
  - split; [|exists pr; auto]. intros Ab. apply X. apply (step_slack Q (InBlock, s) (Between, s') i d S I). intros; exact Ab.
  - exfalso. apply X. apply (step_slack Q (InBlock, s) (Between, s') i d S I). cbn [snd]. intros pr' _ G Ed. congruence.
Qed.
Print Assumptions C35_only_below_one_partial.

(** The full claim is false of the code, with the default parameters: sells at 0.46 are matched at
    prices where a seller's partial fill is worth less than one quote coin, so buyers get two base
    coins more than sellers pay; the order of user 3 (100000 coins, untouched) is then not covered. *)
Definition p46 : dec := P18 * 46 / 100.
Definition p54 : dec := P18 * 54 / 100.
Definition drain : list action :=
  [ABegin 5; AMsg (MCreatePair 1 (Coin 1) (Coin 2)); AMsg (MLimitOrder 1 1 Sell (Coin 1) 1000 (Coin 2) half 1000 3600);
   AMsg (MLimitOrder 2 1 Buy (Coin 2) 500 (Coin 1) half 1000 3600); AEnd; ABegin 10;
   AMsg (MLimitOrder 1 1 Sell (Coin 1) 100000 (Coin 2) p46 100000 3600);
   AMsg (MLimitOrder 1 1 Sell (Coin 1) 300 (Coin 2) p46 300 3600);
   AMsg (MLimitOrder 2 1 Buy (Coin 2) 49648 (Coin 1) half 99295 3600);
   AMsg (MLimitOrder 2 1 Buy (Coin 2) 462 (Coin 1) p46 1003 3600)].
Definition drain_more : list action := drain ++ [AMsg (MLimitOrder 3 1 Sell (Coin 1) 100000 (Coin 2) p54 100000 3600)].
Definition drain_short : list action := drain_more ++ [AEnd].
Theorem C35_refuted : exists c i d, reach (sane any_params) c /\ fst c = Between /\ bal (st_bank (snd c)) (PairEscrow i) d < orders_owed (snd c) i d /\ ~ covered (snd c) i d.
Proof.
  exists (after 1 drain_short), 1, (Coin 1). split; [apply after_reach; reflexivity|]. split; [vm_compute; reflexivity|].
  assert (X : bal (st_bank (snd (after 1 drain_short))) (PairEscrow 1) (Coin 1) < orders_owed (snd (after 1 drain_short)) 1 (Coin 1)) by (vm_compute; reflexivity).
  split; [exact X|]. unfold covered. lia.
Qed.
Print Assumptions C35_refuted.

(** Concrete cases: a reachable pair with live orders whose quote coin is covered non-trivially; a
    history of trades at price two and above; the base coin side of the first pair. *)
Example C35_quote_example : reach (sane any_params) (after 1 trade3) /\ exists pr, get_pair (snd (after 1 trade3)) 1 = Some pr /\ pr_base pr = Coin 1 /\ 0 < orders_owed (snd (after 1 trade3)) 1 (Coin 2).
Proof.
  split; [apply after_reach; reflexivity|]. assert (X : match get_pair (snd (after 1 trade3)) 1 with Some pr => denom_eqb (pr_base pr) (Coin 1) && (0 <? orders_owed (snd (after 1 trade3)) 1 (Coin 2)) | None => false end = true) by (vm_compute; reflexivity).
  destruct (get_pair (snd (after 1 trade3)) 1) as [pr|]; [|discriminate X]. exists pr. split; [reflexivity|]. apply andb_true_iff in X. destruct X as [X1 X2]. split; [|lia].
  destruct (denom_eqb_spec (pr_base pr) (Coin 1)); [assumption|discriminate X1].
Qed.
(** User 1 sells 100000 at two; user 2 buys 70000 of them: 30000 stay owed and covered. *)
Definition above1 : list action :=
  [ABegin 5; AMsg (MCreatePair 1 (Coin 1) (Coin 2)); AMsg (MLimitOrder 1 1 Sell (Coin 1) 100000 (Coin 2) (2 * P18) 100000 3600);
   AMsg (MLimitOrder 2 1 Buy (Coin 2) 140000 (Coin 1) (2 * P18) 70000 3600)].
Fixpoint ends_where (b : state -> bool) (c : config) (l : list action) : bool :=
  match l with
  | [] => true
  | a :: t => match play1 c a with Some c' => (match a with AEnd => b (snd c) | _ => true end) && ends_where b c' t | None => true end
  end.
Lemma play_where Q (P : state -> Prop) b l : (forall s, b s = true -> P s) -> forall c0 c, runs_where Q P c0 c -> ends_where b c l = true -> runs_where Q P c0 (fst (play c l)).
Proof.
  intros HP. induction l as [|a l IH]; intros c0 c R H; cbn in *; [exact R|]. destruct (play1 c a) as [c'|] eqn:E; [|exact R].
  apply andb_true_iff in H. destruct H as [H1 H2]. apply IH; [|exact H2]. pose proof (play1_step Q _ _ _ E) as S. inversion S; subst.
  - eapply Where_begin; eassumption.
  - eapply Where_msg; eassumption.
  - eapply Where_end; [eassumption| |eassumption]. destruct a as [t|m|]; [discriminate E|exfalso; destruct m; cbn [play1] in E; try discriminate E; (match type of E with context [deliver s ?m] => destruct (deliver s m) end; discriminate E)|]. apply HP. exact H1.
Qed.
Definition no_pool_above (i : Z) (s : state) : bool :=
  forallb (fun kv => negb (live (snd kv) && match ko_dir (snd kv) with Sell => true | Buy => false end) || (P18 <=? ko_price (snd kv))) (st_orders s) && match st_pools s with [] => true | _ => false end.
Lemma no_pool_above_ok i s : no_pool_above i s = true -> sells_above_one s i.
Proof.
  intros H. apply andb_true_iff in H. destruct H as [H1 H2]. split.
  - intros j o G L D. apply mget_In in G. rewrite forallb_forall in H1. specialize (H1 _ G). cbn [snd] in H1. rewrite L, D in H1. cbn [andb negb orb] in H1. lia.
  - left. intros k p G. unfold get_pool in G. destruct (st_pools s); [discriminate G|discriminate H2].
Qed.
Example C35_base_example : exists c, genesis (sane any_params) (ex_start 1) /\ runs_where (sane any_params) (fun s => sells_above_one s 1) (Between, ex_start 1) c /\ fst c = Between /\ orders_owed (snd c) 1 (Coin 1) = 30000.
Proof.
  exists (after 1 (above1 ++ [AEnd])). split; [apply ex_genesis; reflexivity|]. split; [|split; vm_compute; reflexivity].
  apply (play_where _ _ (no_pool_above 1)); [exact (no_pool_above_ok 1)|constructor|vm_compute; reflexivity].
Qed.
(** The step of [C35_refuted] is one that [C35_only_below_one_partial] describes. *)
Lemma after_snoc b l a c' : snd (play (Between, ex_start b) l) = true -> play1 (after b l) a = Some c' -> after b (l ++ [a]) = c'.
Proof.
  unfold after. generalize (Between, ex_start b). induction l as [|x l IH]; intros c H E.
  - cbn [app play fst] in *. rewrite E. reflexivity.
  - cbn [app play] in *. destruct (play1 c x) as [c1|]; [|discriminate H]. exact (IH c1 H E).
Qed.
Example C35_only_example : exists c c', reach (sane any_params) c /\ step (sane any_params) c c' /\ covered (snd c) 1 (Coin 1) /\ ~ covered (snd c') 1 (Coin 1).
Proof.
  exists (after 1 drain_more), (after 1 drain_short). split; [apply after_reach; reflexivity|]. split.
  - destruct (play1 (after 1 drain_more) AEnd) as [c'|] eqn:E; [|exfalso; revert E; vm_compute; discriminate].
    assert (X : after 1 drain_short = c') by (apply (after_snoc 1 drain_more AEnd c'); [vm_compute; reflexivity|exact E]).
    rewrite X. exact (play1_step _ _ _ _ E).
  - split; unfold covered; [vm_compute; discriminate|]. assert (X : bal (st_bank (snd (after 1 drain_short))) (PairEscrow 1) (Coin 1) < orders_owed (snd (after 1 drain_short)) 1 (Coin 1)) by (vm_compute; reflexivity). lia.
Qed.

(** ** C43: the end-of-block batch never fails. *)

(** The claim is false of the code with the default parameters: the same trades without the third
    user's order leave the escrow with too few base coins to pay the buyers, and the end blocker fails. *)
Theorem C43_refuted : exists s, reach (sane any_params) (InBlock, s) /\ st_params s = ex_params 1 /\ end_block idl s = None.
Proof.
  exists (snd (after 1 drain)). split; [|split].
  - apply after_in_block; [reflexivity|vm_compute; reflexivity].
  - vm_compute. reflexivity.
  - vm_compute. reflexivity.
Qed.
Print Assumptions C43_refuted.
