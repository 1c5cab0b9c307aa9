(** Whenever a checked function of [MatchChk] answers, the unchecked one of [MatchModel] gives the
    same answer. *)
From Verif Require Import Base Dec TickModel OrderModel MatchModel MatchSpec OrderProofs MatchProofs PoolModel KeeperModel MatchChk.

Lemma chk_dec_of a b : of_res (chk_dec a) = Some b -> b = a.
Proof. unfold chk_dec. destruct (dec_fits a); cbn [of_res]; intros H; [injection H; auto|discriminate H]. Qed.
Lemma chk_int_of a b : of_res (chk_int a) = Some b -> b = a.
Proof. unfold chk_int. destruct (int_fits a); cbn [of_res]; intros H; [injection H; auto|discriminate H]. Qed.
Lemma quo_trunc_of a b c : of_res (c_quo_trunc a b) = Some c -> c = dquo_trunc a b.
Proof. unfold c_quo_trunc. destruct (b =? 0); [discriminate|]. apply chk_dec_of. Qed.

Ltac inv_c := repeat (cbn [fst snd] in *; match goal with
  | H : Some _ = Some _ |- _ => injection H; clear H; intros; subst
  | H : None = Some _ |- _ => discriminate H
  | H : of_res (i_add _ _) = Some _ |- _ => apply chk_int_of in H; subst
  | H : of_res (i_sub _ _) = Some _ |- _ => apply chk_int_of in H; subst
  | H : of_res (c_trunc _) = Some _ |- _ => apply chk_int_of in H; subst
  | H : of_res (c_mul_int _ _) = Some _ |- _ => apply chk_dec_of in H; subst
  | H : of_res (c_quo_trunc _ _) = Some _ |- _ => apply quo_trunc_of in H; subst
  | H : match ?e with Some _ => _ | None => None end = Some _ |- _ => let E := fresh "E" in destruct e eqn:E; [|discriminate H]
  end).

Lemma matchable_c_some o p m : matchable_c o p = Some m -> m = matchable_amount o p.
Proof. unfold matchable_c, matchable_amount. intros H. destruct (o_dir o); inv_c; reflexivity. Qed.

Lemma sum_c_some f g : (forall p x, f p = Some x -> x = g p) -> forall ps acc r, sum_c f ps acc = Some r -> r = fold_left (fun a p => a + g p) ps acc.
Proof.
  intros Hf. induction ps as [|p ps IH]; intros acc r H; cbn [sum_c fold_left] in *; inv_c; [reflexivity|].
  apply Hf in E. subst. exact (IH _ _ H).
Qed.
Lemma total_amount_c_some h ps r : total_amount_c h ps = Some r -> r = total_amount h ps.
Proof. apply (sum_c_some _ (fun p => o_amt (get h p))). intros p x E. injection E; auto. Qed.
Lemma total_matchable_c_some h ps p r : total_matchable_c h ps p = Some r -> r = total_matchable h ps p.
Proof. apply (sum_c_some _ (fun q => matchable_amount (get h q) p)). intros q x E. exact (matchable_c_some _ _ _ E). Qed.

Lemma add_order_c_some h ob p b : add_order_c h ob p = Some b -> b = add_order h ob p.
Proof. unfold add_order_c, add_order. intros H. inv_c. apply matchable_c_some in E. subst. reflexivity. Qed.
Lemma add_orders_c_some h : forall ps ob b, add_orders_c h ps ob = Some b -> b = fold_left (add_order h) ps ob.
Proof. induction ps as [|p ps IH]; intros ob b H; cbn [add_orders_c fold_left] in *; inv_c; [reflexivity|]. apply add_order_c_some in E. subst. exact (IH _ _ H). Qed.
Lemma new_order_book_c_some h b : new_order_book_c h = Some b -> b = new_order_book h.
Proof. apply add_orders_c_some. Qed.

Lemma acc_ticks_c_some h : forall ts acc r, acc_ticks_c h acc ts = Some r -> r = acc_ticks h acc ts.
Proof.
  induction ts as [|[p ps] ts IH]; intros acc r H; cbn [acc_ticks_c acc_ticks] in *; inv_c; [reflexivity|].
  apply total_matchable_c_some in E. subst. rewrite (IH _ _ E0). reflexivity.
Qed.
Lemma make_view_c_some h ob v : make_view_c h ob = Some v -> v = make_view h ob.
Proof. unfold make_view_c, make_view. intros H. inv_c. apply acc_ticks_c_some in E. apply acc_ticks_c_some in E0. subst. reflexivity. Qed.

Lemma fill_order_c_some h p a price r : fill_order_c h p a price = Some r -> fill_order h p a price = Some r.
Proof.
  unfold fill_order_c, fill_order. intros H. inv_c. apply matchable_c_some in E. subst.
  destruct (matchable_amount (get h p) price <? a); [discriminate H|]. unfold filled, fill_diff, fill_paid, fill_recv.
  destruct (o_dir (get h p)); inv_c; reflexivity.
Qed.
Lemma fulfill_order_c_some h p price r : fulfill_order_c h p price = Some r -> fulfill_order h p price = Some r.
Proof.
  unfold fulfill_order_c, fulfill_order. intros H. inv_c. apply matchable_c_some in E. subst.
  destruct (0 <? matchable_amount (get h p) price); [exact (fill_order_c_some _ _ _ _ _ H)|exact H].
Qed.
Lemma fulfill_orders_c_some price : forall ps h qd h' q, fulfill_orders_c h ps price qd = Some (h', q) -> fulfill_orders h ps price = Some (h', q - qd).
Proof.
  induction ps as [|p ps IH]; intros h qd h' q H; cbn [fulfill_orders_c fulfill_orders] in *.
  - inv_c. f_equal. f_equal. lia.
  - inv_c. destruct p0 as [h1 d1]. cbn [fst snd] in *. rewrite (fulfill_order_c_some _ _ _ _ E). rewrite (IH _ _ _ _ H). f_equal. f_equal. lia.
Qed.

Lemma side_total_c_some h mp : forall ts acc r, side_total_c h mp ts acc = Some r -> r = fold_left (fun acc t => acc + total_matchable h (snd t) mp) ts acc.
Proof. induction ts as [|t ts IH]; intros acc r H; cbn [side_total_c fold_left] in *; inv_c; [reflexivity|]. apply total_matchable_c_some in E. subst. exact (IH _ _ H). Qed.
Lemma side_step_c_some h mp sl st tot other r : side_step_c h mp sl st tot other = Some r -> side_step h mp sl st tot other = r.
Proof.
  unfold side_step_c, side_step. destruct st as [|t st]; intros H; [inv_c; reflexivity|]. cbv zeta in *. inv_c. apply total_matchable_c_some in E. subst.
  assert (X : b = ((Z.min tot other <=? tot - total_matchable h (snd t) mp) || (sl && (dtrunc (dmul_int mp (Z.min tot other - (tot - total_matchable h (snd t) mp))) =? 0)))).
  { destruct (_ <=? _); cbn [orb]; [inv_c; reflexivity|]. destruct sl; cbn [andb] in *; inv_c; reflexivity. }
  rewrite <- X. destruct b; [destruct st|]; inv_c; reflexivity.
Qed.
Lemma single_loop_c_some h mp : forall fuel bst sst bt st r, single_loop_c fuel h mp bst sst bt st = Some r -> single_loop fuel h mp bst sst bt st = Some r.
Proof.
  induction fuel as [|k IH]; intros bst sst bt st r H; cbn [single_loop_c single_loop] in *; [discriminate H|]. inv_c.
  rewrite (side_step_c_some _ _ _ _ _ _ _ E). destruct o as [[[[bst' bt'] mb] bd]|]; [|inv_c; reflexivity]. inv_c.
  rewrite (side_step_c_some _ _ _ _ _ _ _ E0). destruct o as [[[[sst' st'] m] sd]|]; [|inv_c; reflexivity].
  destruct (negb bd && negb sd); [exact H|exact (IH _ _ _ _ _ H)].
Qed.
Lemma find_matchable_single_c_some h ob mp r : find_matchable_single_c h ob mp = Some r -> find_matchable_single h ob mp = Some r.
Proof.
  unfold find_matchable_single_c, find_matchable_single. cbv zeta. intros H. inv_c. apply side_total_c_some in E. subst.
  destruct (side_prefix false mp (buys ob)) as [|b bs]; [exact H|]. inv_c. apply side_total_c_some in E. subst.
  destruct (side_prefix true mp (sells ob)) as [|s ss]; [exact H|]. exact (single_loop_c_some _ _ _ _ _ _ _ _ H).
Qed.

Lemma first_shares_c_some h price amt total : forall ps acc l a, first_shares_c h price amt total ps acc = Some (l, a) ->
  l = map (fun p => (p, first_share h price amt total p)) ps /\ a = fold_left (fun acc pm => acc + opt_or0 (snd pm)) l acc.
Proof.
  induction ps as [|p ps IH]; intros acc l a H; cbn [first_shares_c map] in *; inv_c; [split; reflexivity|].
  apply matchable_c_some in E. subst. destruct p0 as [l' a']. cbn [fst snd] in *. destruct (IH _ _ _ E2) as [-> ->].
  assert (X : o = first_share h price amt total p).
  { unfold first_share. destruct (_ =? 0); inv_c; reflexivity. }
  rewrite <- X. split; [reflexivity|]. cbn [fold_left snd]. f_equal. destruct o; inv_c; cbn [opt_or0]; [reflexivity|lia].
Qed.
Lemma second_share_c_some h price : forall l rem r, second_share_c h price rem l = Some r -> r = second_share h price rem l.
Proof.
  induction l as [|[p m] l IH]; intros rem r H; cbn [second_share_c second_share] in *; [inv_c; reflexivity|].
  destruct (rem =? 0); [inv_c; reflexivity|]. inv_c. apply matchable_c_some in E. subst. rewrite (IH _ _ E0). reflexivity.
Qed.
Lemma split_shares_c_some h price : forall l r, split_shares_c h price l = Some r -> r = (filter (share_ok h price) l, filter (fun pm => negb (share_ok h price pm)) l).
Proof.
  induction l as [|[p m] l IH]; intros r H; cbn [split_shares_c filter] in *; [inv_c; reflexivity|]. inv_c. rewrite (IH _ eq_refl). cbn [fst snd].
  assert (X : b = share_ok h price (p, m)).
  { unfold share_ok. cbn [fst snd]. destruct (opt_or0 m =? 0); cbn [negb andb]; [inv_c; reflexivity|]. destruct (is_buy (o_dir (get h p))); cbn [orb]; inv_c; reflexivity. }
  rewrite <- X. destruct b; reflexivity.
Qed.
Lemma fill_list_c_some price : forall l h qd h' q, fill_list_c h price l qd = Some (h', q) -> fill_list h price l = Some (h', q - qd).
Proof.
  induction l as [|[p m] l IH]; intros h qd h' q H; cbn [fill_list_c fill_list] in *.
  - inv_c. f_equal. f_equal. lia.
  - inv_c. destruct p0 as [h1 d1]. cbn [fst snd] in *. rewrite (fill_order_c_some _ _ _ _ _ E). rewrite (IH _ _ _ _ H). f_equal. f_equal. lia.
Qed.
Lemma dist_orders_c_some iter price : forall fuel h ps amt r, dist_orders_c iter fuel h ps amt price = Some r -> dist_orders iter fuel h ps amt price = Some r.
Proof.
  induction fuel as [|k IH]; intros h ps amt r H; cbn [dist_orders_c dist_orders] in *; [discriminate H|]. cbv zeta. inv_c.
  apply total_amount_c_some in E. subst. destruct p as [l1 a]. cbn [fst snd] in *. destruct (first_shares_c_some _ _ _ _ _ _ _ _ E0) as [-> ->].
  apply second_share_c_some in E1. subst. apply split_shares_c_some in E2. subst. cbn [fst snd] in H.
  destruct (filter _ _) as [|x xs] in H |- *.
  - destruct r as [h' q]. rewrite (fill_list_c_some _ _ _ _ _ _ H). f_equal. f_equal. lia.
  - destruct (filter (share_ok h price) _) as [|y ys] in H |- *; exact (IH _ _ _ _ H).
Qed.
Lemma dist_groups_c_some iter price : forall gs h rem qd h' q, dist_groups_c iter h gs rem price qd = Some (h', q) -> dist_groups iter h gs rem price = Some (h', q - qd).
Proof.
  induction gs as [|[b ps] gs IH]; intros h rem qd h' q H; cbn [dist_groups_c dist_groups] in *.
  - inv_c. f_equal. f_equal. lia.
  - inv_c. apply total_matchable_c_some in E. subst. cbv zeta. destruct (_ =? 0); [exact (IH _ _ _ _ _ H)|].
    destruct (_ <=? _).
    + inv_c. destruct p as [h1 d1]. cbn [fst snd] in *. apply fulfill_orders_c_some in E. rewrite E.
      destruct (_ =? 0); [inv_c; f_equal; f_equal; lia|]. rewrite (IH _ _ _ _ _ H). f_equal. f_equal. lia.
    + inv_c. destruct p as [h1 d1]. cbn [fst snd] in *. unfold distribute_to_orders. rewrite (dist_orders_c_some _ _ _ _ _ _ _ E). f_equal. f_equal. lia.
Qed.
Lemma distribute_to_tick_c_some iter h t amt price r : distribute_to_tick_c iter h t amt price = Some r -> distribute_to_tick iter h t amt price = Some r.
Proof. unfold distribute_to_tick_c, distribute_to_tick. destruct r as [h' q]. intros H. rewrite (dist_groups_c_some _ _ _ _ _ _ _ _ H). f_equal. f_equal. lia. Qed.
Lemma distribute_to_ticks_c_some iter mp : forall ts h rem qd h' q, distribute_to_ticks_c iter h ts rem mp qd = Some (h', q) -> distribute_to_ticks iter h ts rem mp = Some (h', q - qd).
Proof.
  induction ts as [|t ts IH]; intros h rem qd h' q H; cbn [distribute_to_ticks_c distribute_to_ticks] in *.
  - inv_c. f_equal. f_equal. lia.
  - inv_c. apply total_matchable_c_some in E. subst. cbv zeta. destruct (_ <=? _).
    + inv_c. destruct p as [h1 d1]. cbn [fst snd] in *. apply fulfill_orders_c_some in E. rewrite E.
      destruct (_ =? 0); [inv_c; f_equal; f_equal; lia|]. rewrite (IH _ _ _ _ _ H). f_equal. f_equal. lia.
    + inv_c. destruct p as [h1 d1]. cbn [fst snd] in *. rewrite (distribute_to_tick_c_some _ _ _ _ _ _ E). f_equal. f_equal. lia.
Qed.
Lemma match_single_c_some iter h ob mp r : match_single_c iter h ob mp = Some r -> match_single iter h ob mp = Some r.
Proof.
  unfold match_single_c, match_single. intros H. inv_c. rewrite (find_matchable_single_c_some _ _ _ _ E). destruct o as [m|]; [|exact H]. inv_c.
  destruct p as [h1 d1]. destruct p0 as [h2 d2]. cbn [fst snd] in *. rewrite (distribute_to_ticks_c_some _ _ _ _ _ _ _ _ E0), (distribute_to_ticks_c_some _ _ _ _ _ _ _ _ E1). f_equal. f_equal. f_equal. lia.
Qed.
Lemma beyond_at_c_some h inc last : forall ts over r, beyond_at_c h inc last ts over = Some r -> r = beyond_at h inc last ts over.
Proof.
  induction ts as [|[p ps] ts IH]; intros over r H; cbn [beyond_at_c beyond_at] in *; [inv_c; reflexivity|].
  destruct (if inc then last <? p else p <? last); [inv_c; reflexivity|]. inv_c. apply total_matchable_c_some in E. subst. cbv zeta. destruct (p =? last); inv_c; [reflexivity|exact (IH _ _ H)].
Qed.
Lemma price_direction_c_some h ob last d : price_direction_c h ob last = Some d -> d = price_direction h ob last.
Proof.
  unfold price_direction_c, price_direction. intros H. inv_c. apply beyond_at_c_some in E. apply beyond_at_c_some in E0. subst.
  destruct (beyond_at h false last (buys ob) 0) as [bo ba]. destruct (beyond_at h true last (sells ob) 0) as [su sa]. cbn [fst snd] in *.
  destruct (sa + su <? bo); inv_c; [reflexivity|]. destruct (ba + bo <? su); reflexivity.
Qed.
Lemma match_loop_c_some iter d : forall fuel h bs ss mp qd m r, match_loop_c iter fuel d h bs ss mp qd m = Some r -> match_loop iter fuel d h bs ss mp qd m = Some r.
Proof.
  induction fuel as [|k IH]; intros h bs ss mp qd m r H; cbn [match_loop_c match_loop] in *; [discriminate H|].
  destruct bs as [|bt br]; [exact H|]. destruct ss as [|st sr]; [exact H|]. destruct (fst st <=? fst bt); [|exact H]. cbv zeta in *.
  set (p := match d with PriceIncreasing => fst st | _ => fst bt end) in *. inv_c.
  apply total_matchable_c_some in E. apply total_matchable_c_some in E0. subst.
  destruct (total_matchable h (snd bt) p <=? 0); [exact (IH _ _ _ _ _ _ _ H)|]. destruct (total_matchable h (snd st) p <=? 0); [exact (IH _ _ _ _ _ _ _ H)|].
  destruct (distribute_to_tick_c _ h bt _ p) as [[h1 d1]|] eqn:Ex in H; [|discriminate H]. cbn [fst snd] in H. destruct (of_res (i_add qd d1)) as [q1|] eqn:Eq1 in H; [|discriminate H].
  destruct (distribute_to_tick_c _ h1 st _ p) as [[h2 d2]|] eqn:Ey in H; [|discriminate H]. cbn [fst snd] in H. destruct (of_res (i_add q1 d2)) as [q2|] eqn:Eq2 in H; [|discriminate H]. inv_c.
  rewrite (distribute_to_tick_c_some _ _ _ _ _ _ Ex). rewrite (distribute_to_tick_c_some _ _ _ _ _ _ Ey). exact (IH _ _ _ _ _ _ _ H).
Qed.
Lemma match_book_c_some iter h ob last r : match_book_c iter h ob last = Some r -> match_book iter h ob last = Some r.
Proof.
  unfold match_book_c, match_book. destruct (buys ob) as [|b bs] eqn:Eb; [auto|]. destruct (sells ob) as [|s ss] eqn:Es; [auto|]. cbv zeta. intros H. inv_c.
  apply price_direction_c_some in E. subst. rewrite (match_single_c_some _ _ _ _ _ E0).
  destruct o as [[h1 q]|]; (destruct (price_direction h ob last); [exact H| |]; exact (match_loop_c_some _ _ _ _ _ _ _ _ _ _ H)).
Qed.
