(** The checked batch gives, when it answers, the answer of the unchecked one. *)
From Verif Require Import Base Dec TickModel OrderModel MatchModel MatchSpec OrderProofs MatchProofs PoolModel KeeperModel KeeperSpec MatchChk MatchChkProofs KeeperChk.

Lemma search_loop_c_some fc f : (forall i b, fc i = Some b -> f i = b) -> forall fuel i j r, search_loop_c fuel fc i j = Some r -> search_loop fuel f i j = r.
Proof.
  intros Hf. induction fuel as [|k IH]; intros i j r H; cbn [search_loop_c search_loop] in *; [inv_c; reflexivity|].
  destruct (i <? j); [|inv_c; reflexivity]. cbv zeta in *. destruct (fc ((i + j) / 2)) as [b|] eqn:E; [|discriminate H]. rewrite (Hf _ _ E). destruct b; exact (IH _ _ _ H).
Qed.
Lemma find_first_true_c_some fc f a b r : (forall i x, fc i = Some x -> f i = x) -> find_first_true_c a b fc = Some r -> find_first_true a b f = r.
Proof.
  intros Hf. unfold find_first_true_c, find_first_true, go_search_c, go_search. destruct (a <? b); intros H; cbv zeta in *;
    (match type of H with match ?e with Some _ => _ | None => None end = _ => destruct e as [g|] eqn:E; [|discriminate H] end).
  - rewrite (search_loop_c_some (fun i => fc (a + i)) (fun i => f (a + i)) (fun i x => Hf (a + i) x) _ _ _ _ E). injection H; auto.
  - rewrite (search_loop_c_some (fun i => fc (a - i)) (fun i => f (a - i)) (fun i x => Hf (a - i) x) _ _ _ _ E). injection H; auto.
Qed.

(** A checked view answers like an unchecked one. *)
Definition view_same (c : oview_c) (v : order_view) : Prop :=
  (forall x, oc_highest_buy c = Some x -> ov_highest_buy v = x) /\ (forall x, oc_lowest_sell c = Some x -> ov_lowest_sell v = x) /\
  (forall p x, oc_buy_over c p = Some x -> ov_buy_over v p true = x) /\ (forall p x, oc_sell_under c p = Some x -> ov_sell_under v p true = x).
Lemma view_same_book v : view_same (oc_of_view v) (ov_of_view v).
Proof. unfold view_same. cbn. repeat split; intros; inv_c; reflexivity. Qed.
Lemma view_same_pool p : view_same (oc_of_pool p) (ov_of_pool p).
Proof.
  unfold view_same. cbn. repeat split.
  - intros x H. destruct (pool_price p); cbn [of_res] in H; inv_c; reflexivity.
  - intros x H. destruct (pool_price p); cbn [of_res] in H; inv_c; reflexivity.
  - intros q x H. destruct (buy_amount_over p q); cbn [of_res] in H; inv_c; reflexivity.
  - intros q x H. destruct (sell_amount_under p q); cbn [of_res] in H; inv_c; reflexivity.
Qed.
Lemma best_c_some gt (fc : oview_c -> option (option dec)) (f : order_view -> option dec) cs vs : Forall2 (fun c v => forall x, fc c = Some x -> f v = x) cs vs ->
  forall acc r, best_c gt (map fc cs) acc = Some r -> fold_left (fun acc v => opt_better gt acc (f v)) vs acc = r.
Proof.
  induction 1 as [|c v cs vs H F IH]; intros acc r E; cbn [map best_c fold_left] in *; [inv_c; reflexivity|].
  destruct (fc c) as [p|] eqn:Ec; [|discriminate E]. rewrite (H p eq_refl). exact (IH _ _ E).
Qed.
Lemma add_c_some (fc : oview_c -> option Z) (f : order_view -> Z) cs vs : Forall2 (fun c v => forall x, fc c = Some x -> f v = x) cs vs ->
  forall acc r, add_c (map fc cs) acc = Some r -> fold_left (fun acc v => acc + f v) vs acc = r.
Proof.
  induction 1 as [|c v cs vs H F IH]; intros acc r E; cbn [map add_c fold_left] in *; [inv_c; reflexivity|].
  destruct (fc c) as [p|] eqn:Ec; [|discriminate E]. rewrite (H p eq_refl). inv_c. exact (IH _ _ E).
Qed.
Lemma Forall2_weaken {A B} (R S : A -> B -> Prop) l1 l2 : (forall a b, R a b -> S a b) -> Forall2 R l1 l2 -> Forall2 S l1 l2.
Proof. intros H. induction 1; constructor; auto. Qed.
Lemma view_same_multi cs vs : Forall2 view_same cs vs -> view_same (multi_c cs) (multi_view vs).
Proof.
  intros F. unfold view_same, multi_c, multi_view. cbn [oc_highest_buy oc_lowest_sell oc_buy_over oc_sell_under ov_highest_buy ov_lowest_sell ov_buy_over ov_sell_under]. repeat split.
  - intros x. apply best_c_some. refine (Forall2_weaken _ _ _ _ _ F). intros a b H. apply H.
  - intros x. apply best_c_some. refine (Forall2_weaken _ _ _ _ _ F). intros a b H. apply H.
  - intros p x. apply (add_c_some (fun v => oc_buy_over v p) (fun v => ov_buy_over v p true)). refine (Forall2_weaken _ _ _ _ _ F). intros a b H. apply H.
  - intros p x. apply (add_c_some (fun v => oc_sell_under v p) (fun v => ov_sell_under v p true)). refine (Forall2_weaken _ _ _ _ _ F). intros a b H. apply H.
Qed.
Lemma c_add_of a b c : of_res (c_add a b) = Some c -> c = a + b.
Proof. apply chk_dec_of. Qed.
Lemma find_match_price_c_some c v prec r : view_same c v -> find_match_price_c c prec = Some r -> find_match_price v prec = r.
Proof.
  intros (Hb & Hs & Bo & Su) H. unfold find_match_price_c in H. unfold find_match_price.
  destruct (oc_highest_buy c) as [hb|]; [|discriminate H]. rewrite (Hb hb eq_refl). destruct hb as [hb|]; [|inv_c; reflexivity].
  destruct (oc_lowest_sell c) as [ls|]; [|discriminate H]. rewrite (Hs ls eq_refl). destruct ls as [ls|]; [|inv_c; reflexivity].
  destruct (hb <? ls); [inv_c; reflexivity|]. cbv zeta in *.
  match type of H with match ?e with Some _ => _ | None => None end = _ => destruct e as [i|] eqn:Ei; [|discriminate H] end.
  erewrite (find_first_true_c_some _ _ _ _ i); [|shelve|exact Ei]. destruct i as [i|]; [|injection H; auto].
  match type of H with match ?e with Some _ => _ | None => None end = _ => destruct e as [j|] eqn:Ej; [|discriminate H] end.
  erewrite (find_first_true_c_some _ _ _ _ j); [|shelve|exact Ej]. destruct j as [j|]; [|injection H; auto].
  match type of H with match ?e with Some _ => _ | None => None end = _ => destruct e as [x|] eqn:Ex; [|discriminate H] end.
  apply c_add_of in Ex. subst x. injection H; auto.
  Unshelve.
  - intros k x Hk. cbn beta in *. destruct (oc_sell_under c (tick_from_index k prec)) as [s|] eqn:E1; [|discriminate Hk]. rewrite (Su _ _ E1).
    destruct (0 <? s); [|inv_c; reflexivity]. destruct (oc_buy_over c (tick_from_index (k + 1) prec)) as [b|] eqn:E2; [|discriminate Hk]. rewrite (Bo _ _ E2). inv_c. reflexivity.
  - intros k x Hk. cbn beta in *. destruct (oc_buy_over c (tick_from_index k prec)) as [s|] eqn:E1; [|discriminate Hk]. rewrite (Bo _ _ E1).
    destruct (0 <? s); [|inv_c; reflexivity]. destruct (oc_sell_under c (tick_from_index (k - 1) prec)) as [b|] eqn:E2; [|discriminate Hk]. rewrite (Su _ _ E2). inv_c. reflexivity.
Qed.

Lemma pool_order_c_some id d p a o : pool_order_c id d p a = Some o -> o = pool_order id d (p, a).
Proof. unfold pool_order_c, pool_order, offer_coin_amount. cbn [fst snd]. destruct d; intros H; inv_c; reflexivity. Qed.
Lemma orders_at_c_some p ip os : orders_at_c p ip = Some os -> os = orders_at p ip.
Proof.
  unfold orders_at_c, orders_at. intros H. destruct (buy_amount_over (snd ip) p) as [b| |]; [|discriminate H|discriminate H]. cbn [of_res] in H. cbn zeta. change (ok_or0 (Ok b)) with b.
  destruct (sell_amount_under (snd ip) p) as [c| |]; cbn [of_res] in H; [|destruct (0 <? b); inv_c|destruct (0 <? b); inv_c]. change (ok_or0 (Ok c)) with c.
  destruct (0 <? b), (0 <? c); inv_c; repeat match goal with H : pool_order_c _ _ _ _ = Some _ |- _ => apply pool_order_c_some in H; subst end; reflexivity.
Qed.
Lemma orders_at_all_c_some p : forall ps os, orders_at_all_c p ps = Some os -> os = flat_map (orders_at p) ps.
Proof. induction ps as [|ip ps IH]; intros os H; cbn [orders_at_all_c flat_map] in *; inv_c; [reflexivity|]. apply orders_at_c_some in E. subst. rewrite (IH _ eq_refl). reflexivity. Qed.

Lemma kmatch_c_some iter prm h ps last r : kmatch_c iter prm h ps last = Some r -> kmatch iter prm h ps last = Some r.
Proof.
  unfold kmatch_c, kmatch. cbv zeta. destruct last as [last|]; intros H.
  - destruct (price_limits last (pm_price_ratio prm) (pm_tick_prec prm)) as [lim| |]; [|discriminate H|discriminate H]. cbn [of_res] in *.
    destruct (orders_around (fst lim) (snd lim) (pm_tick_prec prm) ps) as [po|]; [|discriminate H].
    destruct (new_order_book_c (h ++ po)) as [ob|] eqn:Eb; [|discriminate H]. apply new_order_book_c_some in Eb. subst ob.
    match type of H with match ?e with Some _ => _ | None => None end = _ => destruct e as [x|] eqn:Ex; [|discriminate H] end.
    rewrite (match_book_c_some _ _ _ _ _ Ex). exact H.
  - destruct (new_order_book_c h) as [ob|] eqn:Eb; [|discriminate H]. apply new_order_book_c_some in Eb. subst ob.
    destruct (make_view_c h (new_order_book h)) as [v|] eqn:Ev; [|discriminate H]. apply make_view_c_some in Ev. subst v.
    set (c := multi_c (oc_of_view (make_view h (new_order_book h)) :: map (fun ip => oc_of_pool (snd ip)) ps)) in *.
    set (v := multi_view (ov_of_view (make_view h (new_order_book h)) :: map (fun ip => ov_of_pool (snd ip)) ps)) in *.
    assert (V : view_same c v).
    { apply view_same_multi. constructor; [apply view_same_book|]. clear. induction ps as [|ip ps IH]; [constructor|]. constructor; [apply view_same_pool|exact IH]. }
    destruct (oc_highest_buy c) as [hb|] eqn:Ehb; [|discriminate H]. destruct (oc_lowest_sell c) as [ls|] eqn:Els; [|discriminate H].
    rewrite (proj1 V hb Ehb), (proj1 (proj2 V) ls Els).
    match type of H with (if ?e then None else _) = _ => destruct e; [discriminate H|] end.
    destruct (find_match_price_c c (pm_tick_prec prm)) as [f|] eqn:Ef; [|discriminate H]. rewrite (find_match_price_c_some _ _ _ _ V Ef).
    destruct f as [mp|]; [|exact H].
    destruct (orders_at_all_c mp ps) as [po|] eqn:Ep; [|discriminate H]. apply orders_at_all_c_some in Ep. subst po.
    destruct (new_order_book_c (h ++ flat_map (orders_at mp) ps)) as [ob|] eqn:Eb; [|discriminate H]. apply new_order_book_c_some in Eb. subst ob.
    match type of H with match ?e with Some _ => _ | None => None end = _ => destruct e as [x|] eqn:Ex; [|discriminate H] end.
    rewrite (match_single_c_some _ _ _ _ _ Ex). exact H.
Qed.
Lemma execute_matching_c_some iter pr s s' : execute_matching_c iter pr s = Some s' -> execute_matching iter pr s = Some s'.
Proof.
  unfold execute_matching_c, execute_matching. intros H. destruct (collect_orders _ _ _) as [r1|]; [|discriminate H]. destruct (collect_pools _ _ _) as [r2|]; [|discriminate H].
  match type of H with match ?e with Some _ => _ | None => None end = _ => destruct e as [m|] eqn:E; [|discriminate H] end.
  rewrite (kmatch_c_some _ _ _ _ _ _ E). exact H.
Qed.
Lemma for_each_some {A} (f g : A -> state -> option state) l : (forall x s s', f x s = Some s' -> g x s = Some s') -> forall s s', for_each f l s = Some s' -> for_each g l s = Some s'.
Proof.
  intros Hf. induction l as [|x l IH]; intros s s' H; cbn [for_each] in *; [exact H|]. destruct (f x s) as [s1|] eqn:E; [|discriminate H]. rewrite (Hf _ _ _ E). exact (IH _ _ H).
Qed.
Lemma end_block_c_some iter s s' : end_block_c iter s = Some s' -> end_block iter s = Some s'.
Proof.
  unfold end_block_c, end_block. destruct (_ =? 0); [|auto]. unfold execute_requests_c, execute_requests. intros H.
  destruct (for_each _ (st_pairs s) s) as [s1|] eqn:E; [|discriminate H].
  rewrite (for_each_some _ (fun kv : key * pair => execute_matching iter (snd kv)) _ (fun kv a b X => execute_matching_c_some iter (snd kv) a b X) _ _ E). exact H.
Qed.
Lemma runs_c_runs Q c c' : runs_c Q c c' -> runs Q c c'.
Proof.
  induction 1 as [c|c1 c2 c3 R IH S]; [constructor|]. apply (Runs_step Q c1 c2 c3 IH). destruct S as [s t H|s m s' H K|iter s s' H K].
  - constructor. exact H.
  - econstructor; [exact H|exact K].
  - apply (Step_end Q iter); [exact H|exact (end_block_c_some _ _ _ K)].
Qed.
Lemma reach_c_reach Q c : reach_c Q c -> reach Q c.
Proof. intros (s0 & G & R). exists s0. split; [exact G|exact (runs_c_runs _ _ _ R)]. Qed.
