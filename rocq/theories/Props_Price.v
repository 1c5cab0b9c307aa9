(** ** C76: the last price of a pair is the price of its last trade *)
From Verif Require Import Base Dec DecProofs TickModel OrderModel MatchModel MatchSpec MatchProofs MatchLoopProofs MatchBookProofs MatchTop OrderProofs DirectionProofs PoolModel PoolProofs KeeperModel KeeperLib KeeperSpec KeeperSpec2 LedgerSpec LifeSpec KeeperMicro KeeperBank KeeperSteps KeeperReqs KeeperOrders KeeperTrade KeeperInv KeeperHist KeeperBlock KeeperExpire KeeperPairBatch KeeperExample Props_Keeper5.

Lemma trace_bound h tr h' f : trace h tr h' -> In f tr -> (f_ptr f < length h)%nat.
Proof.
  induction 1 as [h|h i a p rest h' Hi Hp Ha Hacc Htr IH]; intros X; [destruct X|]. destruct X as [<-|X]; [exact Hi|]. specialize (IH X). rewrite upd_length in IH. exact IH.
Qed.
Lemma trace_fills_at h tr h' (ok : dec -> Prop) : trace h tr h' -> (forall f, In f tr -> ok (f_price f)) -> fills_at h h' ok.
Proof.
  intros T F. split; [apply (trace_static _ _ _ T)|]. intros k _. exists (fills_of k tr). split; [apply trace_filled_by; exact T|].
  apply Forall_forall. intros f Hin. unfold fills_of in Hin. apply in_map_iff in Hin. destruct Hin as (g & <- & Hin). apply filter_In in Hin. apply F, Hin.
Qed.

(** The price the engine reports is a price at which an order was filled. *)
Theorem C76_engine : forall iter h h' mp qd, is_perm_iter iter -> Forall wf_order h -> match_outcome iter h h' mp qd -> traded_at h h' mp.
Proof.
  intros iter h h' mp qd Hi Hw Ho. destruct (match_outcome_ok _ _ _ _ _ Hi Hw Ho) as (tr & [MT _ _ _ _ _ _ _] & _ & f & Hf & <-).
  exists (f_ptr f), (fills_of (f_ptr f) tr). split; [exact (trace_bound _ _ _ _ MT Hf)|]. split; [apply trace_filled_by; exact MT|].
  unfold fills_of. rewrite map_map. cbn [snd]. apply in_map_iff. exists f. split; [reflexivity|]. apply filter_In. split; [exact Hf|apply Nat.eqb_refl].
Qed.
Print Assumptions C76_engine.

(** All fills of a first match are at the price found, all others lie between the last price and the new
    one (for a fall from below one this is not so, see C53). *)
Lemma kmatch_price iter prm h ps last h1 h2 mp qd : is_perm_iter iter -> Forall wf_order h1 -> (forall l, last = Some l -> 0 < l) -> 0 < mp -> kmatch iter prm h ps last = Some (h1, Some (h2, mp, qd)) ->
  match last with
  | None => fills_at h1 h2 (fun p => p = mp)
  | Some l => fills_at h1 h2 (fun p => l <= p <= mp) \/ l < P18 \/ fills_at h1 h2 (fun p => mp <= p <= l)
  end.
Proof.
  intros Hi Hw Hl Hm H. unfold kmatch in H. cbv zeta in H. destruct last as [l|].
  - specialize (Hl l eq_refl). destruct (of_res _) as [lim|]; [|discriminate H]. destruct (orders_around _ _ _ _) as [po|]; [|discriminate H].
    destruct (match_book iter (h ++ po) (new_order_book (h ++ po)) l) as [[[[h2' mp'] qd'] m]|] eqn:Em; [|discriminate H]. destruct m; [|discriminate H]. injection H as Eh <- <- <-. rewrite Eh in Em.
    destruct (match_prices iter h1 l h2' mp' qd' true Hi Hw Hl Em) as (tr & T & Hmp & D).
    destruct (price_direction h1 (new_order_book h1) l).
    + left. apply (trace_fills_at _ _ _ _ T). intros f Hf. rewrite (D f Hf). destruct Hmp as [->|(g & Hg & <-)]; [lia|]. rewrite (D g Hg). lia.
    + left. apply (trace_fills_at _ _ _ _ T). apply D.
    + destruct (Z.lt_ge_cases l P18) as [X|X]; [right; left; exact X|right; right]. apply (trace_fills_at _ _ _ _ T). apply (D X).
  - match type of H with (if ?e then None else _) = _ => destruct e eqn:Ec; [discriminate H|] end.
    destruct (find_match_price _ _) as [mp'|]; [|discriminate H]. destruct (match_single iter _ _ mp') as [[[h2' qd']|]|] eqn:Es; [|discriminate H|discriminate H]. injection H as Eh <- <- <-. rewrite Eh in Es.
    apply wf_heap_Forall in Hw. destruct (book_side_wf h1 Hw) as [HB HS].
    destruct (match_single_ok iter Hi h1 (new_order_book h1) mp' Hw Hm HB HS) as (r & E2 & Hr). rewrite Es in E2. injection E2 as <-. destruct Hr as (tr & M & _ & P & _).
    exact (trace_fills_at _ _ _ _ (mr_trace _ _ _ _ _ _ M) P).
Qed.

Lemma no_fill_mic (Q : ctl) s s' k o : mic Q s s' -> stage_of Q = SReq -> str s -> mget (st_orders s) k = Some o -> exists o', mget (st_orders s') k = Some o' /\ no_fill o o'.
Proof.
  intros M B S G. assert (Same : no_fill o o) by (unfold no_fill; auto). destruct (orders_mic _ _ _ M) as [E|[(X & _)|[(o0 & o1 & G0 & _ & La & _ & [X|(E1 & E2 & E3)] & _ & E)|(X & E)]]].
  - exists o. rewrite E. auto.
  - congruence.
  - congruence.
  - rewrite E, mget_mset. destruct (key_eqb_spec k (ko_pair o1, ko_id o1)) as [->|N]; [|exists o; auto]. exists o1. split; [reflexivity|].
    destruct La as (_ & Ei & Ep & _). rewrite Ei, Ep in G. unfold get_order in G0. rewrite G0 in G. injection G as <-. unfold no_fill. auto.
  - congruence.
Qed.
Lemma no_fill_mics (Q : ctl) s s' k o : mics Q s s' -> stage_of Q = SReq -> inv Q s -> mget (st_orders s) k = Some o -> exists o', mget (st_orders s') k = Some o' /\ no_fill o o'.
Proof.
  intros M B. revert o. induction M as [|s1 s2 s3 M1 M IH]; intros o I G; [exists o; unfold no_fill; auto|].
  destruct (no_fill_mic Q _ _ _ _ M1 B (v_str _ _ I) G) as (o1 & G1 & N1). destruct (IH o1 (inv_mic _ _ _ M1 I) G1) as (o' & G' & N'). exists o'. split; [exact G'|].
  unfold no_fill in *. destruct N1 as (? & ? & ?), N' as (? & ? & ?). repeat split; congruence.
Qed.

(** A batch either leaves the last price of a pair alone and fills none of its orders, or it sets the last
    price to one at which an order (of a user or a pool) was just filled, no fill being further from the
    last price; nothing else of the pair changes but its batch number. *)
Theorem C76_last_price : forall Q s s' i pr, batch_runs Q s s' -> get_pair s i = Some pr ->
  exists pr', get_pair s' i = Some pr' /\ pr_id pr' = i /\ pr_base pr' = pr_base pr /\ pr_quote pr' = pr_quote pr /\ pr_last_order pr' = pr_last_order pr /\ pr_batch pr' = pr_batch pr + 1 /\
    ((pr_last_price pr' = pr_last_price pr /\ forall j o, get_order s i j = Some o -> exists o', get_order s' i j = Some o' /\ no_fill o o') \/
     exists iter sa hu po h2 mp, at_matching iter s pr sa /\ offered sa pr hu /\ Forall (fun o => exists n, o_kind o = KPool n) po /\
       pr_last_price pr' = Some mp /\ traded_at (hu ++ po) h2 mp /\
       match pr_last_price pr with
       | None => fills_at (hu ++ po) h2 (fun p => p = mp)
       | Some l => fills_at (hu ++ po) h2 (fun p => l <= p <= mp) \/ l < P18 \/ fills_at (hu ++ po) h2 (fun p => mp <= p <= l)
       end).
Proof.
  intros Q s s' i pr (R & B & iter & Hi & E) Gp. destruct (batch_pair Q iter Hi s s' R B E i pr Gp) as (sa & sb & Epr & Am & Ex & Ia & Ga & _ & _ & Oa & Pb & s1 & O1 & I1 & M1).
  subst i. destruct (execute_matching_spec (mkCtl (sane Q) STrade) iter pr sa sb Hi Ia (batch_sane Q) eq_refl Ga Ex) as (ss & price & hu & ps & MB & MS & Mb & Eb & _ & _ & Pm & _ & _ & _ & D).
  rewrite Pb. eexists. split; [unfold get_pair; rewrite Eb, mget_mset, key_eqb_refl; reflexivity|]. cbn [pr_id pr_base pr_quote pr_last_order pr_batch pr_last_price]. do 5 (split; [reflexivity|]).
  destruct D as [(-> & _ & Eo & _)|(po & h & h2 & mp & qd & -> & Eh & Fp & MD)].
  - left. split; [reflexivity|]. intros j o G. rewrite <- Oa in G. pose proof (MS SReq (or_intror eq_refl)) as M0. cbn [allowed] in M0.
    destruct (no_fill_mics _ _ _ _ _ M0 eq_refl (proj1 (inv_ctl (mkCtl (sane Q) STrade) SReq sa) Ia) G) as (o1 & G1 & N1).
    rewrite <- Eo in G1. change (get_order sb (pr_id pr) j = Some o1) in G1. rewrite <- O1 in G1.
    destruct (no_fill_mics _ _ _ _ _ M1 eq_refl I1 G1) as (o' & G' & N'). exists o'. split; [exact G'|].
    unfold no_fill in *. destruct N1 as (? & ? & ?), N' as (? & ? & ?). repeat split; congruence.
  - right. exists iter, sa, hu, po, h2, mp. split; [exact Am|]. destruct (mb_collect _ _ _ _ _ MB) as (s0 & C1 & C2). split; [exists s0; exact C1|].
    split; [eapply Forall_impl; [|exact Fp]; intros o (_ & n & K & _); exists n; exact K|]. split; [reflexivity|].
    pose proof (Forall_impl _ fresh_wf (md_fresh _ _ _ _ _ _ _ _ _ MD)) as Wf. subst h. pose proof (md_outcome _ _ _ _ _ _ _ _ _ MD) as Out. split; [exact (C76_engine _ _ _ _ _ Hi Wf Out)|].
    destruct (md_kmatch _ _ _ _ _ _ _ _ _ MD) as (hu' & ps' & Ek). apply (kmatch_price iter (st_params sa) hu' ps' (pr_last_price pr) _ h2 mp qd Hi Wf); [|exact (match_outcome_price _ _ _ _ _ Hi Wf Out)|exact Ek].
    intros l El. destruct (i_pairs _ (v_str _ _ Ia) _ _ Ga) as (_ & _ & _ & _ & _ & X & _). exact (X l El).
Qed.
Print Assumptions C76_last_price.

(** After a first trade at one half, a batch with a sell order at 0.51 and a market order to buy ends at 0.51. *)
Lemma batch_check acts (Gs : is_some (end_block idl (snd (after 1 acts))) = true) (f : state -> bool) :
  reach (sane any_params) (InBlock, snd (after 1 acts)) -> (st_height (snd (after 1 acts)) mod pm_batch_size (st_params (snd (after 1 acts))) =? 0) = true ->
  match end_block idl (snd (after 1 acts)) with Some s' => f s' | None => false end = true -> exists s', batch_runs any_params (snd (after 1 acts)) s' /\ f s' = true.
Proof.
  intros R H F. destruct (end_block idl (snd (after 1 acts))) as [s'|] eqn:E; [|discriminate F]. exists s'. split; [|exact F]. split; [exact R|]. split; [apply Z.eqb_eq; exact H|]. exists idl. split; [exact idl_perm|exact E].
Qed.
Definition has_price (s : state) (p : dec) : bool := match get_pair s 1 with Some pr => match pr_last_price pr with Some x => x =? p | None => false end | None => false end.
Example C76_example : has_price (snd (after 1 trade2)) half = true /\ exists s', batch_runs any_params (snd (after 1 trade2)) s' /\ has_price s' 510000000000000000 = true.
Proof.
  split; [vm_compute; reflexivity|]. apply (batch_check trade2); [vm_compute; reflexivity|apply after_in_block; [reflexivity|vm_compute; reflexivity]|vm_compute; reflexivity|vm_compute; reflexivity].
Qed.
