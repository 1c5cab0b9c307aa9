(** Nothing but an UpdateParams message touches the parameters: function by function, no invariant needed. *)
From Verif Require Import Base Dec OrderModel MatchModel PoolModel KeeperModel KeeperSpec KeeperMicro.

Definition kp (s s' : state) : Prop := st_params s' = st_params s.
Lemma kp_send s f t cs s' : st_send s f t cs = Some s' -> kp s s'.
Proof. intros H. destruct (st_send_spec _ _ _ _ _ H) as (b & -> & _). reflexivity. Qed.
Lemma kp_trans a b c : kp a b -> kp b c -> kp a c.
Proof. unfold kp. congruence. Qed.
Lemma kp_each {A} (f : A -> state -> option state) : (forall x s s', f x s = Some s' -> kp s s') -> forall l s s', for_each f l s = Some s' -> kp s s'.
Proof. intros F. induction l as [|x l IH]; intros s s' H; cbn [for_each] in H; [injection H as <-; reflexivity|]. destruct (f x s) as [s1|] eqn:E; [|discriminate H]. exact (kp_trans _ _ _ (F _ _ _ E) (IH _ _ H)). Qed.

Ltac kp_run :=
  repeat match goal with
  | H : None = Some _ |- _ => discriminate H
  | H : Some _ = Some _ |- _ => injection H; clear H; intros; subst
  | H : st_send _ _ _ _ = Some _ |- _ => apply kp_send in H
  | H : (match ?e with _ => _ end) = Some _ |- _ => destruct e eqn:?; cbv zeta in H
  end.
Ltac kp_end := repeat match goal with E : kp _ _ |- _ => revert E end; clear; intros; unfold kp in *; cbn in *; congruence.

Lemma kp_finish_order s o st s' : finish_order s o st = Some s' -> kp s s'.
Proof.
  unfold finish_order. intros H. kp_run; unfold kp in *; destruct (ko_type o); cbn; try congruence; repeat match goal with |- context [if ?b then _ else _] => destruct b end; cbn; congruence.
Qed.
Lemma kp_finish_dep s r st s' : finish_dep s r st = Some s' -> kp s s'.
Proof. unfold finish_dep. intros H. kp_run; kp_end. Qed.
Lemma kp_finish_wd s r st s' : finish_wd s r st = Some s' -> kp s s'.
Proof. unfold finish_wd. intros H. kp_run; kp_end. Qed.
Lemma kp_execute_dep s r s' : execute_dep s r = Some s' -> kp s s'.
Proof. unfold execute_dep. cbv zeta. intros H. kp_run; try (match goal with E : finish_dep _ _ _ = Some _ |- _ => apply kp_finish_dep in E end; kp_end); kp_end. Qed.
Lemma kp_execute_wd s r s' : execute_wd s r = Some s' -> kp s s'.
Proof.
  unfold execute_wd. cbv zeta. intros H. kp_run; try (match goal with E : finish_wd _ _ _ = Some _ |- _ => apply kp_finish_wd in E end); try kp_end.
  match goal with E : kp (if ?b then _ else _) _ |- _ => destruct b end; kp_end.
Qed.
Lemma kp_collect_orders l : forall s h r, collect_orders l s h = Some r -> kp s (fst r).
Proof.
  induction l as [|[k o] l IH]; intros s h r H; cbn [collect_orders] in H; [injection H as <-; reflexivity|]. cbv zeta in H. destruct (o_terminal (ko_status o)); [exact (IH _ _ _ H)|].
  destruct (match ko_status o with ONotExecuted => false | _ => expired_at o (st_time s) end).
  - destruct (finish_order s o OExpired) as [s1|] eqn:E; [|discriminate H]. exact (kp_trans _ _ _ (kp_finish_order _ _ _ _ E) (IH _ _ _ H)).
  - destruct (of_res (user_order o)); [|discriminate H]. refine (kp_trans _ _ _ _ (IH _ _ _ H)). destruct (ko_status o); reflexivity.
Qed.
Lemma kp_collect_pools l pr : forall s r, collect_pools l pr s = Some r -> kp s (fst r).
Proof.
  induction l as [|[k u] l IH]; intros s r H; cbn [collect_pools] in H; [injection H as <-; reflexivity|]. kp_run.
  - exact (IH _ _ H).
  - exact (IH _ _ H).
  - match goal with E : collect_pools _ _ _ = Some _ |- _ => exact (IH _ _ E) end.
Qed.
Lemma kp_apply_orders pr os : forall s q seen r, apply_orders pr os s q seen = Some r -> kp s (fst r).
Proof.
  induction os as [|o os IH]; intros s q seen r H; cbn [apply_orders] in H; [injection H as <-; reflexivity|]. destruct (is_matched o); [|exact (IH _ _ _ _ H)].
  destruct (o_kind o) as [|id|id]; [discriminate H| |].
  - destruct (get_order s (pr_id pr) id) as [ko|]; [|discriminate H]. cbv zeta in H. destruct (ko_remaining ko <? o_paid o); [discriminate H|].
    match type of H with (match ?e with _ => _ end) = _ => destruct e as [s1|] eqn:E; [|discriminate H] end. destruct (new_coins _); [|discriminate H]. refine (kp_trans _ _ _ _ (IH _ _ _ _ H)).
    match type of E with (if ?b then _ else _) = _ => destruct b end; [exact (kp_finish_order _ _ _ _ E)|injection E as <-; reflexivity].
  - destruct (new_coins _); [|discriminate H]. cbv zeta in H. destruct (existsb _ seen); [discriminate H|]. exact (IH _ _ _ _ H).
Qed.
Lemma kp_matching iter pr s s' : execute_matching iter pr s = Some s' -> kp s s'.
Proof.
  unfold execute_matching. intros H. destruct (collect_orders _ s []) as [r1|] eqn:E1; [|discriminate H]. destruct (collect_pools _ pr (fst r1)) as [r2|] eqn:E2; [|discriminate H].
  pose proof (kp_trans _ _ _ (kp_collect_orders _ _ _ _ E1) (kp_collect_pools _ _ _ _ E2)) as A. destruct (kmatch _ _ _ _ _) as [m|]; [|discriminate H]. destruct (snd m) as [[[h2 mp] qd]|]; [|injection H as <-; exact A].
  destruct (apply_match _ _ _ _) as [s3|] eqn:E3; [|discriminate H]. injection H as <-. unfold apply_match in E3. destruct (queue_pool_payments _ _ _); [|discriminate E3]. destruct (bulk_run _ _); [|discriminate E3].
  destruct (apply_orders _ _ _ _ _) as [r3|] eqn:E4; [|discriminate E3]. destruct (new_coins _); [|discriminate E3]. cbv zeta in E3. destruct (bulk_run _ _); [|discriminate E3]. injection E3 as <-. apply kp_apply_orders in E4. unfold kp in *. cbn in *. congruence.
Qed.
Lemma kp_expire o s s' : expire_order o s = Some s' -> kp s s'.
Proof. unfold expire_order. intros H. kp_run; try (match goal with E : finish_order _ _ _ = Some _ |- _ => exact (kp_finish_order _ _ _ _ E) end); reflexivity. Qed.
Lemma kp_end_block iter s s' : end_block iter s = Some s' -> kp s s'.
Proof.
  unfold end_block. intros H. destruct (_ =? 0); [|injection H as <-; reflexivity]. unfold execute_requests in H.
  destruct (for_each _ (st_pairs s) s) as [s1|] eqn:E1; [|discriminate H]. destruct (for_each _ (st_orders s1) s1) as [s2|] eqn:E2; [|discriminate H]. destruct (for_each _ (st_deps s2) s2) as [s3|] eqn:E3; [|discriminate H].
  apply kp_each in E1; [|intros kv a b X; exact (kp_matching _ _ _ _ X)]. apply kp_each in E2; [|intros kv a b X; exact (kp_expire _ _ _ X)].
  apply kp_each in E3; [|intros kv a b X; cbn beta in X; unfold execute_dep_if in X; destruct (dr_status _); [exact (kp_execute_dep _ _ _ X)| |]; injection X as <-; reflexivity].
  apply kp_each in H; [|intros kv a b X; cbn beta in X; unfold execute_wd_if in X; destruct (wr_status _); [exact (kp_execute_wd _ _ _ X)| |]; injection X as <-; reflexivity].
  unfold kp in *. congruence.
Qed.
Lemma kp_begin_block s t : kp s (begin_block s t).
Proof. unfold begin_block. destruct (delete_outdated_eq (set_clock s (st_height s + 1) t)) as (f & -> & _). reflexivity. Qed.

Lemma kp_create_tail s u pr kind ps cs s' : create_pool_tail s u pr kind ps cs = Some s' -> kp s s'.
Proof. unfold create_pool_tail. cbv zeta. intros H. kp_run. kp_end. Qed.
Lemma kp_place s typ u i d od o dd p a l s' : place_order s typ u i d od o dd p a l = Some s' -> kp s s'.
Proof.
  unfold place_order. cbv zeta. intros H. destruct (_ <? o); [discriminate H|]. destruct (_ <? l); [discriminate H|]. destruct (get_pair s i) as [pr|]; [|discriminate H].
  match type of H with (match ?e with _ => _ end) = _ => destruct e; [|discriminate H] end. match type of H with (match ?e with _ => _ end) = _ => destruct e; [|discriminate H] end.
  match type of H with (match ?e with _ => _ end) = _ => destruct e; [|discriminate H] end. match type of H with (if ?e then _ else _) = _ => destruct e; [discriminate H|] end.
  match type of H with (if ?e then _ else _) = _ => destruct e; [discriminate H|] end. match type of H with (if ?e then _ else _) = _ => destruct e; [discriminate H|] end.
  match type of H with (match ?e with _ => _ end) = _ => destruct e as [b|]; [|discriminate H] end. destruct b; [discriminate H|]. destruct (new_coins _); [|discriminate H].
  destruct (st_send _ _ _ _) as [s1|] eqn:E; [|discriminate H]. injection H as <-. exact (kp_send _ _ _ _ _ E).
Qed.
Lemma kp_handle s m s' : handle s m = Some s' -> (forall p, m <> MUpdateParams p) -> kp s s'.
Proof.
  intros H N. destruct m; cbn [handle] in H.
  - unfold create_pair in H. cbv zeta in H. kp_run; kp_end.
  - unfold create_pool in H. kp_run. eapply kp_create_tail; eassumption.
  - unfold create_rpool in H. cbv zeta in H. kp_run; eapply kp_create_tail; eassumption.
  - unfold deposit_msg in H. cbv zeta in H. kp_run; kp_end.
  - unfold withdraw_msg in H. cbv zeta in H. kp_run; kp_end.
  - exact (kp_place _ _ _ _ _ _ _ _ _ _ _ _ H).
  - exact (kp_place _ _ _ _ _ _ _ _ _ _ _ _ H).
  - unfold mm_order in H. cbv zeta in H. kp_run; match goal with E : place_order _ _ _ _ _ _ _ _ _ _ _ = Some _ |- _ => pose proof (kp_place _ _ _ _ _ _ _ _ _ _ _ _ E) end; kp_end.
  - unfold cancel_order in H. cbv zeta in H. kp_run; match goal with E : finish_order _ _ _ = Some _ |- _ => exact (kp_finish_order _ _ _ _ E) end.
  - unfold cancel_all in H. destruct (existsb _ _); [discriminate H|]. apply kp_each in H; [exact H|]. clear. intros k s s' H. unfold cancel_one in H. cbv zeta in H. kp_run; try (match goal with E : finish_order _ _ _ = Some _ |- _ => exact (kp_finish_order _ _ _ _ E) end); reflexivity.
  - destruct (N _ eq_refl).
  - exact (kp_send _ _ _ _ _ H).
Qed.
