(** Events (C84): proofs. *)
From Verif Require Import Base Dec OrderModel MatchModel MatchSpec MatchProofs PoolModel KeeperModel KeeperLib KeeperSpec KeeperMicro EventModel EventSpec.

(** ** The states agree with [KeeperModel] *)
Definition only {A} (x : option (state * A)) : option state := match x with Some (s, _) => Some s | None => None end.

Lemma finish_order_erase s o st : only (finish_order_e s o st) = finish_order s o st.
Proof. unfold finish_order_e. destruct (finish_order s o st); reflexivity. Qed.
Lemma finish_dep_erase s r st : only (finish_dep_e s r st) = finish_dep s r st.
Proof.
  unfold finish_dep_e, finish_dep. destruct (dr_status r); try reflexivity. destruct (coins_sub _ _) as [rf|]; [|reflexivity].
  destruct (match rf with [] => _ | _ => _ end); reflexivity.
Qed.
Lemma finish_wd_erase s r st : only (finish_wd_e s r st) = finish_wd s r st.
Proof. unfold finish_wd_e. destruct (finish_wd s r st) as [x|]; [|reflexivity]. destruct (wr_status r); reflexivity. Qed.

Lemma execute_dep_erase s r : only (execute_dep_e s r) = execute_dep s r.
Proof.
  unfold execute_dep_e, execute_dep. destruct (get_pool s (dr_pool r)) as [p|]; [|reflexivity]. destruct (pl_disabled p); [apply finish_dep_erase|].
  destruct (get_pair s (pl_pair p)) as [pr|]; [|reflexivity]. destruct (of_res (amm_pool _ _ _ _)) as [ap|]; [|reflexivity]. destruct (is_depleted ap); [apply finish_dep_erase|].
  destruct (of_res (deposit _ _ _ _ _)) as [[[ax ay] pc]|]; [|reflexivity]. destruct (pc =? 0); [apply finish_dep_erase|].
  destruct (new_coins [(PoolCoin _, _)]); [|reflexivity]. destruct (new_coins [(pr_quote pr, ax); (pr_base pr, ay)]); [|reflexivity]. destruct (bulk_run _ _); [|reflexivity]. apply finish_dep_erase.
Qed.
Lemma execute_wd_erase s r : only (execute_wd_e s r) = execute_wd s r.
Proof.
  unfold execute_wd_e, execute_wd. destruct (get_pool s (wr_pool r)) as [p|]; [|reflexivity]. destruct (pl_disabled p); [apply finish_wd_erase|].
  destruct (get_pair s (pl_pair p)) as [pr|]; [|reflexivity]. destruct (of_res (amm_pool _ _ _ _)) as [ap|]; [|reflexivity]. destruct (is_depleted ap); [apply finish_wd_erase|].
  destruct (of_res (withdraw _ _ _ _ _)) as [[x y]|]; [|reflexivity]. destruct ((x =? 0) && (y =? 0)); [apply finish_wd_erase|].
  destruct (new_coins [(pr_quote pr, x); (pr_base pr, y)]); [|reflexivity]. destruct (new_coins [(wr_denom r, wr_amt r)]); [|reflexivity]. destruct (bulk_run _ _); [|reflexivity]. destruct (burn _ _); [|reflexivity]. apply finish_wd_erase.
Qed.
Lemma for_each_erase {A} (f : A -> state -> option (state * list event)) g l : (forall x s, only (f x s) = g x s) -> forall s, only (for_each_e f l s) = for_each g l s.
Proof.
  intros H. induction l as [|x l IH]; intros s; [reflexivity|]. cbn [for_each_e for_each]. rewrite <- (H x s). destruct (f x s) as [[s1 e1]|]; [|reflexivity]. cbn [only fst]. rewrite <- IH.
  destruct (for_each_e f l s1) as [[s2 e2]|]; reflexivity.
Qed.
Lemma cancel_order_erase s u i j : only (cancel_order_e s u i j) = cancel_order s u i j.
Proof. unfold cancel_order_e, cancel_order. destruct (get_order s i j) as [o|]; [|reflexivity]. destruct (negb _); [reflexivity|]. destruct (match ko_status o with OCanceled => true | _ => false end); [reflexivity|]. destruct (ko_batch o =? _); [reflexivity|apply finish_order_erase]. Qed.
Lemma cancel_one_erase ids k s : only (cancel_one_e ids k s) = cancel_one ids k s.
Proof. unfold cancel_one_e, cancel_one. destruct (get_order s _ _) as [o|]; [|reflexivity]. destruct (_ || _); [|reflexivity]. destruct (_ && _); [apply finish_order_erase|reflexivity]. Qed.
Lemma cancel_all_erase s u ids : only (cancel_all_e s u ids) = cancel_all s u ids.
Proof. unfold cancel_all_e, cancel_all. destruct (existsb _ ids); [reflexivity|]. apply for_each_erase. intros. apply cancel_one_erase. Qed.

Definition only2 {A B} (x : option (state * A * B)) : option (state * A) := match x with Some (s, a, _) => Some (s, a) | None => None end.
Lemma collect_orders_erase l : forall s h, only2 (collect_orders_e l s h) = collect_orders l s h.
Proof.
  induction l as [|[k o] l IH]; intros s h; [reflexivity|]. cbn [collect_orders_e collect_orders]. destruct (o_terminal (ko_status o)); [apply IH|].
  destruct (match ko_status o with ONotExecuted => false | _ => expired_at o (st_time s) end).
  - rewrite <- finish_order_erase. destruct (finish_order_e s o OExpired) as [[s1 e1]|]; [|reflexivity]. cbn [only fst]. rewrite <- IH. destruct (collect_orders_e l s1 h) as [[[s2 h2] e2]|]; reflexivity.
  - destruct (of_res (user_order o)); [|reflexivity]. apply IH.
Qed.
Definition only3 {A B C} (x : option (state * A * B * C)) : option (state * A) := match x with Some (s, a, _, _) => Some (s, a) | None => None end.
Lemma apply_orders_erase pr os : forall s q seen acc, only3 (apply_orders_e pr os s q seen acc) = apply_orders pr os s q seen.
Proof.
  induction os as [|o os IH]; intros s q seen acc; [reflexivity|]. cbn [apply_orders_e apply_orders]. destruct (is_matched o); [|apply IH]. destruct (o_kind o) as [|id|id]; [reflexivity| |].
  - destruct (get_order s (pr_id pr) id) as [ko|]; [|reflexivity]. destruct (ko_remaining ko <? o_paid o); [reflexivity|]. set (ko' := ko_with_fill _ _ _ _).
    destruct (ko_open ko' =? 0).
    + rewrite <- finish_order_erase. destruct (finish_order_e s ko' OCompleted) as [[s1 e1]|]; [|reflexivity]. cbn [only fst]. destruct (new_coins _); [|reflexivity]. rewrite <- (IH s1 _ seen acc). destruct (apply_orders_e pr os s1 _ seen acc) as [[[[s2 q2] e2] a2]|]; reflexivity.
    + cbn [fst]. destruct (new_coins _); [|reflexivity]. rewrite <- (IH _ _ seen acc). destruct (apply_orders_e pr os _ _ seen acc) as [[[[s2 q2] e2] a2]|]; reflexivity.
  - destruct (new_coins _); [|reflexivity]. destruct (existsb _ seen); [reflexivity|]. apply IH.
Qed.
Lemma apply_match_erase s pr os qd : only (apply_match_e s pr os qd) = apply_match s pr os qd.
Proof.
  unfold apply_match_e, apply_match. destruct (queue_pool_payments pr os []); [|reflexivity]. destruct (bulk_run _ _) as [b1|]; [|reflexivity]. rewrite <- (apply_orders_erase pr os _ [] [] []).
  destruct (apply_orders_e pr os _ [] [] []) as [[[[s1 q] ev] acc]|]; [|reflexivity]. cbn [only3 fst snd]. destruct (new_coins _); [|reflexivity]. destruct (bulk_run (st_bank s1) _); reflexivity.
Qed.
Lemma execute_matching_erase iter pr s : only (execute_matching_e iter pr s) = execute_matching iter pr s.
Proof.
  unfold execute_matching_e, execute_matching. rewrite <- collect_orders_erase. destruct (collect_orders_e _ s []) as [[[s1 h] ev1]|]; [|reflexivity]. cbn [only2 fst snd].
  destruct (collect_pools _ pr s1) as [r2|]; [|reflexivity]. destruct (kmatch _ _ _ _ _) as [m|]; [|reflexivity]. destruct (snd m) as [[[h2 mp] qd]|]; [|reflexivity].
  rewrite <- apply_match_erase. destruct (apply_match_e _ pr _ qd) as [[s3 e3]|]; reflexivity.
Qed.
Lemma expire_order_erase o s : only (expire_order_e o s) = expire_order o s.
Proof. unfold expire_order_e, expire_order. destruct (_ && _); [apply finish_order_erase|]. destruct (of_res _) as [b|]; [|reflexivity]. destruct b; [apply finish_order_erase|reflexivity]. Qed.
Lemma execute_requests_erase iter s : only (execute_requests_e iter s) = execute_requests iter s.
Proof.
  unfold execute_requests_e, execute_requests.
  rewrite <- (for_each_erase (fun kv : key * pair => execute_matching_e iter (snd kv))) by (intros; apply execute_matching_erase). destruct (for_each_e _ (st_pairs s) s) as [[s1 e1]|]; [|reflexivity]. cbn [only fst].
  rewrite <- (for_each_erase (fun kv : key * korder => expire_order_e (snd kv))) by (intros; apply expire_order_erase). destruct (for_each_e _ (st_orders s1) s1) as [[s2 e2]|]; [|reflexivity]. cbn [only fst].
  rewrite <- (for_each_erase (fun kv : key * dreq => execute_dep_if_e (snd kv))) by (intros x y; unfold execute_dep_if_e, execute_dep_if; destruct (dr_status (snd x)); [apply execute_dep_erase|reflexivity|reflexivity]). destruct (for_each_e _ (st_deps s2) s2) as [[s3 e3]|]; [|reflexivity]. cbn [only fst].
  rewrite <- (for_each_erase (fun kv : key * wreq => execute_wd_if_e (snd kv))) by (intros x y; unfold execute_wd_if_e, execute_wd_if; destruct (wr_status (snd x)); [apply execute_wd_erase|reflexivity|reflexivity]). destruct (for_each_e _ (st_wds s3) s3) as [[s4 e4]|]; reflexivity.
Qed.
Theorem end_block_erase iter s : only (end_block_e iter s) = end_block iter s.
Proof. unfold end_block_e, end_block. destruct (_ =? 0); [apply execute_requests_erase|reflexivity]. Qed.
Theorem deliver_erase s m : only (deliver_e s m) = deliver s m.
Proof.
  unfold deliver_e, deliver. destruct (validate_basic m); [|reflexivity]. destruct m; try (destruct (handle s _); reflexivity); [apply cancel_order_erase|apply cancel_all_erase].
Qed.
