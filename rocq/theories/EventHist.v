(** Events (C84): messages and whole histories. *)
From Verif Require Import Base Dec DecProofs OrderModel MatchModel MatchSpec MatchProofs PoolModel KeeperModel KeeperLib KeeperSpec KeeperMicro KeeperSteps KeeperOrders KeeperReqs KeeperInv KeeperBank KeeperHist GenesisProofs KeeperTrade KeeperBlock KeeperPlace EventModel EventSpec EventProofs EventOrders EventReqs.

(** ** Cancelling *)
Definition keyed (s : state) : Prop := forall i j o, get_order s i j = Some o -> ko_pair o = i /\ ko_id o = j.
Lemma tells_keyed s ev s' : tells s ev s' -> keyed s -> keyed s'.
Proof.
  intros T K i j o' G. specialize (T i j). destruct (get_order s i j) as [o|] eqn:Go; [|destruct T; congruence]. destruct T as (x & Gx & ((P1 & P2 & _) & _)). rewrite G in Gx. injection Gx as <-.
  destruct (K _ _ _ Go). split; congruence.
Qed.
Lemma cancel_order_tells s u i j s' ev : keyed s -> cancel_order_e s u i j = Some (s', ev) -> all_tells s ev s'.
Proof.
  intros K H. unfold cancel_order_e in H. destruct (get_order s i j) as [o|] eqn:G; [|discriminate H]. destruct (negb _); [discriminate H|]. destruct (match ko_status o with OCanceled => true | _ => false end); [discriminate H|].
  cbn zeta in H. destruct (ko_batch o =? _); [discriminate H|]. destruct (K _ _ _ G) as [E1 E2]. refine (finish_all s o OCanceled s' ev _ eq_refl H). rewrite E1, E2. exact G.
Qed.
Lemma cancel_all_tells ids l : forall s s' ev, keyed s -> for_each_e (cancel_one_e ids) l s = Some (s', ev) -> all_tells s ev s'.
Proof.
  induction l as [|k l IH]; intros s s' ev K H; cbn [for_each_e] in H; [injection H as <- <-; apply all_refl|].
  destruct (cancel_one_e ids k s) as [[s1 e1]|] eqn:E; [|discriminate H]. cbn [fst snd] in H. destruct (for_each_e _ l s1) as [[s2 e2]|] eqn:E2; [|discriminate H]. injection H as <- <-. cbn [fst].
  assert (T : all_tells s e1 s1).
  { unfold cancel_one_e in E. destruct (get_order s (fst k) (snd k)) as [o|] eqn:G; [|discriminate E]. destruct (_ || _); [|injection E as <- <-; apply all_refl].
    cbn zeta in E. destruct (_ && _); [|injection E as <- <-; apply all_refl]. destruct (K _ _ _ G) as [X1 X2]. refine (finish_all s o OCanceled s1 e1 _ eq_refl E). rewrite X1, X2. exact G. }
  exact (all_trans _ _ _ _ _ T (IH _ _ _ (tells_keyed _ _ _ (proj1 T) K) E2)).
Qed.

(** ** Other messages: what exists stays, what is new is blank *)
Definition blank (o : korder) : Prop := ko_open o = ko_amt o /\ ko_remaining o = ko_offer o /\ ko_received o = 0 /\ live o = true.
Definition grows (s s' : state) : Prop := forall i j o', get_order s' i j = Some o' -> get_order s i j = Some o' \/ (get_order s i j = None /\ blank o').
Lemma grows_same s s' : st_orders s' = st_orders s -> grows s s'.
Proof. intros E i j o. unfold get_order. rewrite E. auto. Qed.
Lemma grows_new s s' pr o : str s -> get_pair s (pr_id pr) = Some pr -> st_orders s' = mset (st_orders s) (pr_id pr, pr_last_order pr + 1) o -> blank o -> grows s s'.
Proof.
  intros S G E B i j x. unfold get_order. rewrite E, mget_mset. destruct (key_eqb_spec (i, j) (pr_id pr, pr_last_order pr + 1)) as [X|X]; [|auto]. intros Y. injection Y as <-. right. split; [|exact B].
  rewrite X. destruct (mget (st_orders s) (pr_id pr, pr_last_order pr + 1)) as [y|] eqn:Ey; [exfalso|reflexivity]. destruct (i_orders _ S _ _ Ey) as (Ek & p0 & G0 & Bd & _). injection Ek as K1 K2. rewrite <- K1, G in G0. injection G0 as <-. lia.
Qed.
Lemma send_orders s a b cs s' : st_send s a b cs = Some s' -> st_orders s' = st_orders s.
Proof. intros H. apply st_send_spec in H. destruct H as (x & -> & _). reflexivity. Qed.
Lemma tail_orders s u pr kind ps dc s' : create_pool_tail s u pr kind ps dc = Some s' -> st_orders s' = st_orders s.
Proof.
  unfold create_pool_tail. cbn zeta. intros H. destruct (st_send _ _ _ dc) as [s3|] eqn:E3; [|discriminate H]. destruct (st_send s3 _ _ _) as [s4|] eqn:E4; [|discriminate H]. destruct (new_coins _) as [pc|]; [|discriminate H].
  apply send_orders in H, E3, E4. rewrite H. cbn [st_orders set_bank]. rewrite E4, E3. reflexivity.
Qed.
Lemma place_grows s typ u i d od offer dd price amt l s' : str s -> place_order s typ u i d od offer dd price amt l = Some s' -> grows s s'.
Proof.
  intros S H. destruct (place_order_spec _ _ _ _ _ _ _ _ _ _ _ _ S H) as (pr & rp & s1 & G & _ & _ & _ & _ & Es & _ & ->). apply st_send_spec in Es. destruct Es as (b & -> & _).
  eapply (grows_new s _ pr (new_korder s typ u pr d rp amt l) S G); [reflexivity|repeat split].
Qed.
Lemma handle_grows s m s' : str s -> (forall u i j, m <> MCancelOrder u i j) -> (forall u ids, m <> MCancelAllOrders u ids) -> handle s m = Some s' -> grows s s'.
Proof.
  intros S N1 N2 H. destruct m; cbn [handle] in H; try (exfalso; first [eapply N1; reflexivity|eapply N2; reflexivity]).
  - apply grows_same. unfold create_pair in H. cbn zeta in H. destruct (match st_pidx s base quote with Some i => _ | None => _ end); [discriminate H|]. destruct (st_send _ _ _ _) as [s1|] eqn:E; [|discriminate H]. injection H as <-. cbn. exact (send_orders _ _ _ _ _ E).
  - apply grows_same. unfold create_pool in H. inv_do. eapply tail_orders. eassumption.
  - apply grows_same. unfold create_rpool in H. cbn zeta in H. inv_do. eapply tail_orders. eassumption.
  - apply grows_same. unfold deposit_msg in H. cbn zeta in H. destruct (get_pool _ _) as [p|]; [|discriminate H]. destruct (pl_disabled p); [discriminate H|]. destruct (match pl_kind p with PBasic => _ | _ => _ end); [discriminate H|]. destruct (get_pair _ _); [|discriminate H].
    destruct (existsb _ _); [discriminate H|]. destruct (_ <? _); [discriminate H|]. destruct (_ <? _); [discriminate H|]. destruct (st_send _ _ _ _) as [s1|] eqn:E; [|discriminate H]. injection H as <-. cbn. exact (send_orders _ _ _ _ _ E).
  - apply grows_same. unfold withdraw_msg in H. cbn zeta in H. destruct (get_pool _ _) as [p|]; [|discriminate H]. destruct (pl_disabled p); [discriminate H|]. destruct (negb _); [discriminate H|]. destruct (st_send _ _ _ _) as [s1|] eqn:E; [|discriminate H]. injection H as <-. cbn. exact (send_orders _ _ _ _ _ E).
  - exact (place_grows _ _ _ _ _ _ _ _ _ _ _ _ S H).
  - exact (place_grows _ _ _ _ _ _ _ _ _ _ _ _ S H).
  - unfold mm_order in H. cbn zeta in H. destruct (_ <=? _); [discriminate H|]. destruct (place_order _ _ _ _ _ _ _ _ _ _ _) as [s1|] eqn:E; [|discriminate H]. injection H as <-. exact (place_grows _ _ _ _ _ _ _ _ _ _ _ _ S E).
  - apply grows_same. destruct (valid_params _); [|discriminate H]. injection H as <-. reflexivity.
  - apply grows_same. exact (send_orders _ _ _ _ _ H).
Qed.
Definition grows_reqs (s s' : state) : Prop :=
  (forall k r', mget (st_deps s') k = Some r' -> mget (st_deps s) k = Some r' \/ (mget (st_deps s) k = None /\ dr_status r' = RNotExecuted)) /\
  (forall k r', mget (st_wds s') k = Some r' -> mget (st_wds s) k = Some r' \/ (mget (st_wds s) k = None /\ wr_status r' = RNotExecuted)).
Lemma grows_reqs_mic (Q : ctl) s s' : mic Q s s' -> str s -> stage_of Q = SMsg -> grows_reqs s s'.
Proof.
  intros M S B. split; intros k r'.
  - destruct (deps_mic _ _ _ M) as [->|[(_ & p & r2 & G & E1 & E2 & P & ->)|[(X & _)|(X & _)]]]; [auto| |congruence|congruence].
    rewrite mget_mset. destruct (key_eqb_spec k (dr_pool r2, dr_id r2)) as [->|]; [|auto]. intros Y. injection Y as <-. right. split; [|exact P].
    destruct (mget (st_deps s) (dr_pool r2, dr_id r2)) as [y|] eqn:Ey; [exfalso|reflexivity]. destruct (i_deps _ S _ _ Ey) as (Ek & (p0 & G0 & Bd & _) & _). injection Ek as K1 K2. rewrite <- K1, E1 in G0. rewrite G in G0. injection G0 as <-. lia.
  - destruct (wds_mic _ _ _ M) as [->|[(_ & p & r2 & G & E1 & E2 & P & ->)|[(X & _)|(X & _)]]]; [auto| |congruence|congruence].
    rewrite mget_mset. destruct (key_eqb_spec k (wr_pool r2, wr_id r2)) as [->|]; [|auto]. intros Y. injection Y as <-. right. split; [|exact P].
    destruct (mget (st_wds s) (wr_pool r2, wr_id r2)) as [y|] eqn:Ey; [exfalso|reflexivity]. destruct (i_wds _ S _ _ Ey) as (Ek & (p0 & G0 & Bd) & _). injection Ek as K1 K2. rewrite <- K1, E1 in G0. rewrite G in G0. injection G0 as <-. lia.
Qed.
Lemma grows_reqs_mics (Q : ctl) s s' : mics Q s s' -> str s -> stage_of Q = SMsg -> grows_reqs s s'.
Proof.
  intros M. induction M as [s|s1 s2 s3 M1 M2 IH]; intros S B; [split; auto|].
  destruct (grows_reqs_mic _ _ _ M1 S B) as [A1 A2]. destruct (IH (str_mic _ _ _ M1 S) B) as [B1 B2]. destruct (msg_keeps_mic _ _ _ M1 S B) as (K1 & K2 & _). split; intros k r' G.
  - destruct (B1 k r' G) as [X|[X P]]; [auto|]. right. split; [|exact P]. destruct (mget (st_deps s1) k) eqn:E; [|reflexivity]. rewrite (K1 _ _ E) in X. discriminate X.
  - destruct (B2 k r' G) as [X|[X P]]; [auto|]. right. split; [|exact P]. destruct (mget (st_wds s1) k) eqn:E; [|reflexivity]. rewrite (K2 _ _ E) in X. discriminate X.
Qed.

(** ** The log against the state *)
Definition heard (log : list event) (s : state) : Prop :=
  (forall i j, filter (on_order i j) log <> [] -> exists pr, get_pair s i = Some pr /\ j <= pr_last_order pr) /\
  (forall n j, filter (on_deposit n j) log <> [] -> exists p, get_pool s n = Some p /\ j <= pl_last_dep p) /\
  (forall n j, filter (on_withdrawal n j) log <> [] -> exists p, get_pool s n = Some p /\ j <= pl_last_wd p).
Lemma heard_later log s s' : later s s' -> heard log s -> heard log s'.
Proof.
  intros L (H1 & H2 & H3). split; [|split].
  - intros i j F. destruct (H1 i j F) as (p & G & B). destruct (l_pairs _ _ L _ _ G) as (p' & G' & P). exists p'. split; [exact G'|]. unfold pair_later in P. lia.
  - intros i j F. destruct (H2 i j F) as (p & G & B). destruct (l_pools _ _ L _ _ G) as (p' & G' & P). exists p'. split; [exact G'|]. unfold pool_later in P. lia.
  - intros i j F. destruct (H3 i j F) as (p & G & B). destruct (l_pools _ _ L _ _ G) as (p' & G' & P). exists p'. split; [exact G'|]. unfold pool_later in P. lia.
Qed.
Lemma heard_app a b s : heard a s -> heard b s -> heard (a ++ b) s.
Proof.
  assert (X : forall f : event -> bool, filter f (a ++ b) <> [] -> filter f a <> [] \/ filter f b <> []).
  { intros f H. rewrite filter_app in H. destruct (filter f a) as [|x l]; [right; exact H|left; discriminate]. }
  intros (A1 & A2 & A3) (B1 & B2 & B3). split; [|split]; intros i j F; destruct (X _ F); auto.
Qed.
Lemma heard_batch s ev s' : str s -> all_tells s ev s' -> heard ev s.
Proof.
  intros S (T & D & W). split; [|split]; intros i j F.
  - specialize (T i j). destruct (get_order s i j) as [o|] eqn:G; [|destruct T; congruence]. destruct (i_orders _ S _ _ G) as (Ek & pr & Gp & Ok & _). injection Ek as K1 K2. exists pr. rewrite K1, K2. split; [exact Gp|lia].
  - specialize (D i j). destruct (mget (st_deps s) (i, j)) as [r|] eqn:G; [|destruct D; congruence]. destruct (i_deps _ S _ _ G) as (Ek & (p & Gp & Bd & _) & _). injection Ek as K1 K2. exists p. rewrite K1, K2. split; [exact Gp|lia].
  - specialize (W i j). destruct (mget (st_wds s) (i, j)) as [r|] eqn:G; [|destruct W; congruence]. destruct (i_wds _ S _ _ G) as (Ek & (p & Gp & Bd) & _). injection Ek as K1 K2. exists p. rewrite K1, K2. split; [exact Gp|lia].
Qed.
Definition recorded (log : list event) (s : state) : Prop :=
  (forall i j o, get_order s i j = Some o -> order_told i j o log) /\
  (forall n j r, mget (st_deps s) (n, j) = Some r -> deposit_told n j r log) /\
  (forall n j r, mget (st_wds s) (n, j) = Some r -> withdrawal_told n j r log).

Lemma order_told_moved i j o log ev o' : order_told i j o log -> moved o (filter (on_order i j) ev) o' -> ko_pair o = i -> ko_id o = j -> order_told i j o' (log ++ ev).
Proof.
  intros (A1 & A2 & A3 & A4 & A5) (B1 & B2 & B3 & B4 & B5 & B6 & B7) Ei Ej. unfold order_told. cbn zeta. rewrite filter_app, !total_app, filter_app, A5.
  pose proof B1 as (C1 & C2 & C3 & C4 & C5 & C6 & C7 & C8). split; [rewrite C5; lia|]. split; [rewrite C6; lia|]. split; [lia|].
  assert (Lab : forall l, Forall (labelled o) l -> Forall (labelled o') l) by (intros l; apply Forall_impl; intros e; apply labelled_same; unfold same_terms; intuition congruence).
  split; [apply Forall_app; split; apply Lab; assumption|]. unfold live in B2, B7. destruct (o_terminal (ko_status o)) eqn:T.
  - destruct (B2 eq_refl) as [-> ->]. rewrite T. reflexivity.
  - rewrite (B7 eq_refl). destruct (o_terminal (ko_status o')); [|reflexivity]. cbn [negb]. unfold order_event. rewrite C1, C2, Ei, Ej. reflexivity.
Qed.
Lemma recorded_batch log s ev s' : keyed s -> recorded log s -> all_tells s ev s' -> recorded (log ++ ev) s'.
Proof.
  intros K (R1 & R2 & R3) (T & D & W). split; [|split].
  - intros i j o' G. specialize (T i j). destruct (get_order s i j) as [o|] eqn:Go; [|destruct T; congruence]. destruct T as (x & Gx & M). rewrite G in Gx. injection Gx as <-. destruct (K _ _ _ Go) as [Ei Ej].
    exact (order_told_moved i j o log ev o' (R1 _ _ _ Go) M Ei Ej).
  - intros n j r' G. specialize (D n j). destruct (mget (st_deps s) (n, j)) as [r|] eqn:Gr; [|destruct D; congruence]. destruct D as (x & Gx & M). rewrite G in Gx. injection Gx as <-. specialize (R2 _ _ _ Gr).
    destruct (dr_status r) eqn:Sr.
    + refine (deposit_told_filter _ _ _ _ _ _ M). unfold deposit_told in R2. rewrite Sr in R2. rewrite filter_app, R2. reflexivity.
    + destruct M as [-> M]. refine (deposit_told_filter _ _ _ _ _ _ R2). rewrite filter_app, M, app_nil_r. reflexivity.
    + destruct M as [-> M]. refine (deposit_told_filter _ _ _ _ _ _ R2). rewrite filter_app, M, app_nil_r. reflexivity.
  - intros n j r' G. specialize (W n j). destruct (mget (st_wds s) (n, j)) as [r|] eqn:Gr; [|destruct W; congruence]. destruct W as (x & Gx & M). rewrite G in Gx. injection Gx as <-. specialize (R3 _ _ _ Gr).
    destruct (wr_status r) eqn:Sr.
    + refine (withdrawal_told_filter _ _ _ _ _ _ M). unfold withdrawal_told in R3. rewrite Sr in R3. rewrite filter_app, R3. reflexivity.
    + destruct M as [-> M]. refine (withdrawal_told_filter _ _ _ _ _ _ R3). rewrite filter_app, M, app_nil_r. reflexivity.
    + destruct M as [-> M]. refine (withdrawal_told_filter _ _ _ _ _ _ R3). rewrite filter_app, M, app_nil_r. reflexivity.
Qed.
Lemma unheard_order i j log : forall o, filter (on_order i j) log = [] -> blank o -> order_told i j o log.
Proof.
  intros o E (B1 & B2 & B3 & B4). unfold order_told. rewrite E. unfold total. cbn. unfold live in B4. apply negb_true_iff in B4. rewrite B4. split; [lia|]. split; [lia|]. split; [lia|]. split; [constructor|reflexivity].
Qed.
Lemma nil_dec {A} (l : list A) : l = [] \/ l <> [].
Proof. destruct l; [left; reflexivity|right; discriminate]. Qed.
Lemma recorded_grows log s s' : later s s' -> heard log s -> grows s s' -> grows_reqs s s' -> recorded log s -> recorded log s'.
Proof.
  intros L (H1 & H2 & H3) G [D W] (R1 & R2 & R3). split; [|split].
  - intros i j o' X. destruct (G i j o' X) as [Y|[Y B]]; [exact (R1 _ _ _ Y)|]. apply unheard_order; [|exact B]. destruct (nil_dec (filter (on_order i j) log)) as [E|E]; [exact E|exfalso]. destruct (H1 _ _ E) as (pr & Gp & Le).
    destruct (l_orders _ _ L _ _ _ X) as [(o & Go & _)|[_ N]]; [congruence|]. specialize (N _ Gp). lia.
  - intros n j r' X. destruct (D (n, j) r' X) as [Y|[Y B]]; [exact (R2 _ _ _ Y)|]. unfold deposit_told. rewrite B. destruct (nil_dec (filter (on_deposit n j) log)) as [E|E]; [exact E|exfalso]. destruct (H2 _ _ E) as (p & Gp & Le).
    destruct (l_deps _ _ L _ _ _ X) as [(o & Go & _)|[_ N]]; [congruence|]. specialize (N _ Gp). lia.
  - intros n j r' X. destruct (W (n, j) r' X) as [Y|[Y B]]; [exact (R3 _ _ _ Y)|]. unfold withdrawal_told. rewrite B. destruct (nil_dec (filter (on_withdrawal n j) log)) as [E|E]; [exact E|exfalso]. destruct (H3 _ _ E) as (p & Gp & Le).
    destruct (l_wds _ _ L _ _ _ X) as [(o & Go & _)|[_ N]]; [congruence|]. specialize (N _ Gp). lia.
Qed.

(** ** Histories *)
Lemma step_log_step Q c ev c' : step_log Q c ev c' -> step Q c c'.
Proof.
  intros H. destruct H.
  - apply Step_begin. assumption.
  - pose proof (f_equal only H) as E. rewrite deliver_erase in E. exact (Step_msg Q s m s' E H0).
  - pose proof (f_equal only H0) as E. rewrite end_block_erase in E. exact (Step_end Q iter s s' H E).
Qed.
Lemma step_step_log Q c c' : step Q c c' -> exists ev, step_log Q c ev c'.
Proof.
  intros H. destruct H.
  - exists []. apply Log_begin. assumption.
  - pose proof (deliver_erase s m) as E. rewrite H in E. destruct (deliver_e s m) as [[x ev]|] eqn:Ee; [|discriminate E]. cbn [only] in E. injection E as ->. exists ev. exact (Log_msg Q s m s' ev Ee H0).
  - pose proof (end_block_erase iter s) as E. rewrite H0 in E. destruct (end_block_e iter s) as [[x ev]|] eqn:Ee; [|discriminate E]. cbn [only] in E. injection E as ->. exists ev. exact (Log_end Q iter s s' ev H Ee).
Qed.
Lemma runs_log_runs Q c log c' : runs_log Q c log c' -> runs Q c c'.
Proof. intros H. induction H; [constructor|]. econstructor; [eassumption|]. eapply step_log_step. eassumption. Qed.
Lemma runs_runs_log Q c c' : runs Q c c' -> exists log, runs_log Q c log c'.
Proof.
  intros H. induction H as [c|c1 c2 c3 H [log IH] S]; [exists []; constructor|]. destruct (step_step_log _ _ _ S) as [ev E]. exists (log ++ ev). econstructor; eassumption.
Qed.

Lemma step_recorded Q log c ev c' : reach (sane Q) c -> step_log (sane Q) c ev c' -> recorded log (snd c) /\ heard log (snd c) -> recorded (log ++ ev) (snd c') /\ heard (log ++ ev) (snd c').
Proof.
  intros R St (Rec & He). pose proof (reach_str Q c R) as S. pose proof (reach_okp Q c R) as I.
  assert (L : later (snd c) (snd c')) by exact (reach_later Q c c' R (Runs_step _ c c c' (Runs_refl _ c) (step_log_step _ _ _ _ St))).
  assert (K : keyed (snd c)) by exact (inv_keyed _ _ I).
  assert (Batch : all_tells (snd c) ev (snd c') -> recorded (log ++ ev) (snd c') /\ heard (log ++ ev) (snd c')).
  { intros T. split; [exact (recorded_batch _ _ _ _ K Rec T)|]. apply (heard_later _ _ _ L). apply heard_app; [exact He|exact (heard_batch _ _ _ S T)]. }
  destruct St as [s t Ht|s m s' ev H HP|iter s s' ev Hi H]; cbn [snd] in *.
  - rewrite app_nil_r. split; [|exact (heard_later _ _ _ L He)]. destruct (begin_block_facts s t S) as (F1 & F2 & F3 & _). destruct Rec as (R1 & R2 & R3). split; [|split].
    + intros i j o G. apply F3 in G. exact (R1 _ _ _ (proj1 G)).
    + intros i j o G. apply F1 in G. exact (R2 _ _ _ (proj1 G)).
    + intros i j o G. apply F2 in G. exact (R3 _ _ _ (proj1 G)).
  - pose proof (f_equal only H) as E. rewrite deliver_erase in E. cbn [only] in E. unfold deliver_e in H. destruct (validate_basic m); [|discriminate H].
    assert (Quiet : (forall u i j, m <> MCancelOrder u i j) -> (forall u ids, m <> MCancelAllOrders u ids) -> handle s m = Some s' -> ev = [] -> recorded (log ++ ev) s' /\ heard (log ++ ev) s').
    { intros N1 N2 Hh ->. rewrite app_nil_r. split; [|exact (heard_later _ _ _ L He)].
      refine (recorded_grows log s s' L He (handle_grows s m s' S N1 N2 Hh) (grows_reqs_mics (mkCtl (sane Q) SMsg) s s' _ S eq_refl) Rec). exact (deliver_mics (mkCtl (sane Q) SMsg) s m s' eq_refl I HP E). }
    destruct m; try (destruct (handle s _) as [?|] eqn:Eh; [|discriminate H]; injection H as -> <-; apply Quiet; [discriminate|discriminate|reflexivity|reflexivity]).
    + apply Batch. exact (cancel_order_tells _ _ _ _ _ _ K H).
    + apply Batch. unfold cancel_all_e in H. destruct (existsb _ ids); [discriminate H|]. exact (cancel_all_tells _ _ _ _ _ K H).
  - apply Batch. refine (end_block_tells (sane Q) iter s s' ev Hi I _ H). intros p [_ X]. exact X.
Qed.
Theorem history_recorded Q s0 log c : genesis (sane Q) s0 -> runs_log (sane Q) (Between, s0) log c -> recorded log (snd c).
Proof.
  intros G H. assert (X : recorded log (snd c) /\ heard log (snd c)); [|exact (proj1 X)]. remember (Between, s0) as c0 eqn:E0. revert E0. induction H as [c|c1 c2 c3 log ev H IH St]; intros ->.
  - destruct G as (p & b & h & t & _ & _ & _ & _ & ->). cbn [snd]. split; [split; [|split]; intros i j o X; discriminate X|]. split; [|split]; intros i j F; exfalso; apply F; reflexivity.
  - refine (step_recorded Q log c2 ev c3 _ St (IH eq_refl)). exists s0. split; [exact G|exact (runs_log_runs _ _ _ _ H)].
Qed.

(** ** After the end: silence *)
Lemma step_cases Q c ev c' : reach (sane Q) c -> step_log (sane Q) c ev c' -> all_tells (snd c) ev (snd c') \/ ev = [].
Proof.
  intros R St. pose proof (reach_okp Q c R) as I. assert (K : keyed (snd c)) by exact (inv_keyed _ _ I). destruct St as [s t Ht|s m s' ev H HP|iter s s' ev Hi H]; cbn [snd] in *; [right; reflexivity| |].
  - unfold deliver_e in H. destruct (validate_basic m); [|discriminate H].
    destruct m; try (destruct (handle s _) as [?|]; [|discriminate H]; injection H as _ <-; right; reflexivity).
    + left. exact (cancel_order_tells _ _ _ _ _ _ K H).
    + left. unfold cancel_all_e in H. destruct (existsb _ ids); [discriminate H|]. exact (cancel_all_tells _ _ _ _ _ K H).
  - left. refine (end_block_tells (sane Q) iter s s' ev Hi I _ H). intros p [_ X]. exact X.
Qed.
Section Over.
Variables i j : Z.
Definition order_over (s : state) : Prop := (exists pr, get_pair s i = Some pr /\ j <= pr_last_order pr) /\ forall o, get_order s i j = Some o -> live o = false.
Definition dep_over (s : state) : Prop := (exists p, get_pool s i = Some p /\ j <= pl_last_dep p) /\ forall r, mget (st_deps s) (i, j) = Some r -> dr_status r <> RNotExecuted.
Definition wd_over (s : state) : Prop := (exists p, get_pool s i = Some p /\ j <= pl_last_wd p) /\ forall r, mget (st_wds s) (i, j) = Some r -> wr_status r <> RNotExecuted.
Lemma order_over_later s s' : later s s' -> order_over s -> order_over s'.
Proof.
  intros L [(pr & G & B) N]. split.
  - destruct (l_pairs _ _ L _ _ G) as (p' & G' & P). exists p'. split; [exact G'|]. unfold pair_later in P. lia.
  - intros o' Go. destruct (l_orders _ _ L _ _ _ Go) as [(o & X & Y)|[_ Y]]; [|specialize (Y _ G); lia]. specialize (N _ X). destruct Y as (_ & _ & _ & _ & _ & _ & _ & _ & _ & _ & _ & _ & _ & _ & _ & _ & Y & _). rewrite (Y N). exact N.
Qed.
Lemma dep_over_later s s' : later s s' -> dep_over s -> dep_over s'.
Proof.
  intros L [(p & G & B) N]. split.
  - destruct (l_pools _ _ L _ _ G) as (p' & G' & P). exists p'. split; [exact G'|]. unfold pool_later in P. lia.
  - intros r' Go. destruct (l_deps _ _ L _ _ _ Go) as [(r & X & Y)|[_ Y]]; [|specialize (Y _ G); lia]. specialize (N _ X). destruct Y as (_ & _ & _ & _ & _ & Y). rewrite Y; [exact N|left]. destruct (dr_status r); [congruence|reflexivity..].
Qed.
Lemma wd_over_later s s' : later s s' -> wd_over s -> wd_over s'.
Proof.
  intros L [(p & G & B) N]. split.
  - destruct (l_pools _ _ L _ _ G) as (p' & G' & P). exists p'. split; [exact G'|]. unfold pool_later in P. lia.
  - intros r' Go. destruct (l_wds _ _ L _ _ _ Go) as [(r & X & Y)|[_ Y]]; [|specialize (Y _ G); lia]. specialize (N _ X). destruct Y as (_ & _ & _ & _ & _ & _ & Y). rewrite Y; [exact N|left]. destruct (wr_status r); [congruence|reflexivity..].
Qed.
Lemma silence Q (over : state -> Prop) (f : event -> bool) : (forall s s', later s s' -> over s -> over s') -> (forall s ev s', all_tells s ev s' -> over s -> filter f ev = []) ->
  forall c log c', reach (sane Q) c -> runs_log (sane Q) c log c' -> over (snd c) -> filter f log = [].
Proof.
  intros HL HT c log c' R H O. induction H as [c|c1 c2 c3 log ev H IH St]; [reflexivity|]. rewrite filter_app, (IH R O). cbn [app]. pose proof (runs_log_runs _ _ _ _ H) as H0. pose proof (reach_runs _ _ _ R H0) as R2.
  destruct (step_cases Q c2 ev c3 R2 St) as [T| ->]; [|reflexivity]. exact (HT _ _ _ T (HL _ _ (reach_later Q _ _ R H0) O)).
Qed.
Lemma order_over_quiet s ev s' : all_tells s ev s' -> order_over s -> filter (on_order i j) ev = [].
Proof.
  intros (T & _) [_ N]. specialize (T i j). destruct (get_order s i j) as [o|] eqn:G; [|exact (proj2 T)]. destruct T as (o' & _ & (_ & X & _)). exact (proj2 (X (N _ eq_refl))).
Qed.
Lemma dep_over_quiet s ev s' : all_tells s ev s' -> dep_over s -> filter (on_deposit i j) ev = [].
Proof.
  intros (_ & T & _) [_ N]. specialize (T i j). destruct (mget (st_deps s) (i, j)) as [o|] eqn:G; [|exact (proj2 T)]. destruct T as (o' & _ & X). specialize (N _ eq_refl). destruct (dr_status o); [congruence|exact (proj2 X)..].
Qed.
Lemma wd_over_quiet s ev s' : all_tells s ev s' -> wd_over s -> filter (on_withdrawal i j) ev = [].
Proof.
  intros (_ & _ & T) [_ N]. specialize (T i j). destruct (mget (st_wds s) (i, j)) as [o|] eqn:G; [|exact (proj2 T)]. destruct T as (o' & _ & X). specialize (N _ eq_refl). destruct (wr_status o); [congruence|exact (proj2 X)..].
Qed.
End Over.
