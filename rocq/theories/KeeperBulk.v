(** Bulk transfers: merged queues have the effect of the individual transfers. *)
From Verif Require Import Base Dec OrderModel MatchModel PoolModel KeeperModel KeeperLib KeeperSpec KeeperMicro MatchProofs.

(** Total leaving / reaching account [a] in coin [d] when the transfers [q] are executed. *)
Definition q_out (q : bulk) (a : addr) (d : denom) : Z := sumZ (map (fun e => at_acc a (fst (fst e)) (amount_of (snd e) d)) q).
Definition q_in (q : bulk) (a : addr) (d : denom) : Z := sumZ (map (fun e => at_acc a (snd (fst e)) (amount_of (snd e) d)) q).
Definition q_valid (q : bulk) : Prop := Forall (fun e => valid_coins (snd e) = true) q.

(** ** Coins.Add *)
Lemma has_denom_add1 cs d x e : has_denom (coins_add1 cs d x) e = has_denom cs e || denom_eqb e d.
Proof.
  unfold has_denom. induction cs as [|[f y] cs IH]; cbn; [rewrite orb_false_r; reflexivity|].
  destruct (denom_eqb_spec d f) as [->|N]; cbn; [destruct (denom_eqb e f); cbn; rewrite ?orb_false_r, ?orb_true_r; reflexivity|].
  rewrite IH. destruct (denom_eqb e f), (denom_eqb e d), (existsb (fun c => denom_eqb e (fst c)) cs); reflexivity.
Qed.
Lemma coins_add1_spec cs d x : valid_coins cs = true -> 0 < x ->
  valid_coins (coins_add1 cs d x) = true /\ forall e, amount_of (coins_add1 cs d x) e = amount_of cs e + if denom_eqb e d then x else 0.
Proof.
  intros V P. induction cs as [|[f y] cs IH].
  - cbn. split; [destruct (Z.ltb_spec 0 x); [reflexivity|lia]|]. intros e. destruct (denom_eqb e d); lia.
  - destruct (valid_coins_cons _ _ _ V) as (A1 & A2 & A3). destruct (IH A3) as [B1 B2]. cbn [coins_add1]. destruct (denom_eqb_spec d f) as [->|N].
    + split.
      * cbn [valid_coins]. rewrite A2, A3. destruct (Z.ltb_spec 0 (y + x)); [reflexivity|lia].
      * intros e. cbn. destruct (denom_eqb e f); lia.
    + split.
      * cbn [valid_coins]. rewrite B1, has_denom_add1, A2. destruct (denom_eqb_spec f d) as [->|]; [congruence|]. destruct (Z.ltb_spec 0 y); [reflexivity|lia].
      * intros e. cbn. rewrite B2. destruct (denom_eqb_spec e f) as [->|]; [|lia]. destruct (denom_eqb_spec f d) as [->|]; [congruence|lia].
Qed.
Lemma coins_add_spec b : forall a, valid_coins a = true -> valid_coins b = true ->
  valid_coins (coins_add a b) = true /\ forall e, amount_of (coins_add a b) e = amount_of a e + amount_of b e.
Proof.
  unfold coins_add. induction b as [|[d x] b IH]; intros a Va Vb; cbn [fold_left fst snd].
  - split; [assumption|]. intros e. cbn. lia.
  - destruct (valid_coins_cons _ _ _ Vb) as (A1 & A2 & A3). destruct (coins_add1_spec a d x Va A1) as [B1 B2]. destruct (IH _ B1 A3) as [C1 C2].
    split; [assumption|]. intros e. rewrite C2, B2. cbn. destruct (denom_eqb_spec e d) as [->|]; [|lia]. rewrite (amount_of_notin _ _ A2). lia.
Qed.

(** ** Queueing *)
Lemma bulk_merge_spec q f t cs : q_valid q -> valid_coins cs = true ->
  q_valid (bulk_merge q f t cs) /\
  (forall a d, q_out (bulk_merge q f t cs) a d = q_out q a d + at_acc a f (amount_of cs d)) /\
  (forall a d, q_in (bulk_merge q f t cs) a d = q_in q a d + at_acc a t (amount_of cs d)).
Proof.
  intros V Vc. induction q as [|[[f' t'] c] q IH]; cbn [bulk_merge].
  - split; [constructor; [assumption|constructor]|]. split; intros a d; unfold q_out, q_in; cbn; lia.
  - inversion V as [|? ? V1 V2]; subst. cbn in V1. destruct (IH V2) as (A & B & C).
    destruct (addr_eqb_spec f' f) as [->|Nf]; cbn [andb]; [destruct (addr_eqb_spec t' t) as [->|Nt]|].
    + destruct (coins_add_spec cs c V1 Vc) as [D E]. split; [constructor; assumption|].
      split; intros a d; unfold q_out, q_in; cbn [map fst snd]; rewrite !sumZ_cons, E; unfold at_acc; destruct (addr_eqb a _); lia.
    + split; [constructor; assumption|]. unfold q_out, q_in in *. split; intros a d; cbn [map fst snd]; rewrite !sumZ_cons, ?B, ?C; lia.
    + split; [constructor; assumption|]. unfold q_out, q_in in *. split; intros a d; cbn [map fst snd]; rewrite !sumZ_cons, ?B, ?C; lia.
Qed.
Lemma bulk_queue_spec q f t cs : q_valid q -> valid_coins cs = true ->
  q_valid (bulk_queue q f t cs) /\
  (forall a d, q_out (bulk_queue q f t cs) a d = q_out q a d + at_acc a f (amount_of cs d)) /\
  (forall a d, q_in (bulk_queue q f t cs) a d = q_in q a d + at_acc a t (amount_of cs d)).
Proof.
  intros V Vc. unfold bulk_queue. rewrite Vc. destruct cs as [|c cs]; [|apply bulk_merge_spec; assumption].
  cbn [andb negb]. split; [assumption|]. split; intros a d; cbn; unfold at_acc; [destruct (addr_eqb a f)|destruct (addr_eqb a t)]; lia.
Qed.
Lemma bulk_merge_ends (P : addr -> addr -> Prop) q f t cs : P f t -> Forall (fun e => P (fst (fst e)) (snd (fst e))) q -> Forall (fun e => P (fst (fst e)) (snd (fst e))) (bulk_merge q f t cs).
Proof.
  intros H F. induction F as [|[[f' t'] c] q Hq F IH]; cbn [bulk_merge]; [constructor; [assumption|constructor]|].
  destruct (_ && _); constructor; assumption.
Qed.
Lemma bulk_queue_ends (P : addr -> addr -> Prop) q f t cs : P f t -> Forall (fun e => P (fst (fst e)) (snd (fst e))) q -> Forall (fun e => P (fst (fst e)) (snd (fst e))) (bulk_queue q f t cs).
Proof. intros H F. unfold bulk_queue. destruct (_ && _); [apply bulk_merge_ends; assumption|assumption]. Qed.

Lemma q_nonneg q a d : q_valid q -> 0 <= q_out q a d /\ 0 <= q_in q a d.
Proof.
  intros V. split; apply sumZ_nonneg; intros x Hx; apply in_map_iff in Hx; destruct Hx as (e & <- & He); unfold q_valid in V; rewrite Forall_forall in V;
    pose proof (valid_amount_nonneg (snd e) d (V e He)); unfold at_acc; destruct (addr_eqb _ _); lia.
Qed.

(** ** Running *)
Lemma bulk_run_spec q : forall b b', bulk_run b q = Some b' ->
  q_valid q /\ (forall a d, bal b' a d = bal b a d - q_out q a d + q_in q a d) /\ forall d, supply b' d = supply b d.
Proof.
  induction q as [|[[f t] cs] q IH]; intros b b' H; cbn [bulk_run] in H.
  - injection H as <-. split; [constructor|]. split; intros; unfold q_out, q_in; cbn; lia.
  - destruct (send b f t cs) as [b1|] eqn:E; [|discriminate H]. destruct (send_spec _ _ _ _ _ E) as (V & (M1 & M2) & _). destruct (IH _ _ H) as (V' & A & B).
    split; [constructor; assumption|]. split.
    + intros a d. rewrite A, M1. unfold q_out, q_in. cbn [map fst snd]. rewrite !sumZ_cons. unfold at_acc. lia.
    + intros d. rewrite B, M2. reflexivity.
Qed.

(** When no account is both a source and a destination, the order of transfers does not matter. *)
Definition one_way (q : bulk) : Prop := forall e e', In e q -> In e' q -> fst (fst e) <> snd (fst e').

Lemma q_out_in_only q a d : (forall e, In e q -> a <> snd (fst e)) -> q_in q a d = 0.
Proof.
  induction q as [|e q IH]; intros H; [reflexivity|]. unfold q_in in *. cbn [map]. rewrite sumZ_cons, (IH (fun x Hx => H x (or_intror Hx))).
  pose proof (H e (or_introl eq_refl)). unfold at_acc. destruct (addr_eqb_spec a (snd (fst e))); [congruence|reflexivity].
Qed.

Lemma bulk_run_iff q : forall b, q_valid q -> one_way q -> (forall a d, 0 <= bal b a d) ->
  (exists b', bulk_run b q = Some b') <-> forall a d, q_out q a d <= bal b a d.
Proof.
  induction q as [|[[f t] cs] q IH]; intros b V O N; cbn [bulk_run].
  - split; [|eauto]. intros _ a d. unfold q_out. cbn. apply N.
  - inversion V as [|? ? V1 V2]; subst. cbn in V1.
    assert (O' : one_way q) by (intros e e' H1 H2; apply O; right; assumption).
    assert (Nf : f <> t) by (apply (O (f, t, cs) (f, t, cs)); left; reflexivity).
    assert (Q : forall a d, q_out ((f, t, cs) :: q) a d = at_acc a f (amount_of cs d) + q_out q a d) by (intros; unfold q_out; cbn [map fst snd]; rewrite sumZ_cons; reflexivity).
    assert (Zt : forall d, q_out q t d = 0).
    { intros d. unfold q_out. clear IH V V2 O' Q. induction q as [|e q IHq]; [reflexivity|]. cbn [map]. rewrite sumZ_cons, IHq.
      - unfold at_acc. destruct (addr_eqb_spec t (fst (fst e))) as [E|]; [|reflexivity]. exfalso. apply (O e (f, t, cs)); [right; left; reflexivity|left; reflexivity|]. cbn. congruence.
      - intros x y Hx Hy. apply O; (destruct Hx as [->|Hx]; [left; reflexivity|right; right; assumption]) || (destruct Hy as [->|Hy]; [left; reflexivity|right; right; assumption]). }
    assert (SP : forall b1, send b f t cs = Some b1 -> (forall a d, 0 <= bal b1 a d) /\
        ((forall a d, q_out q a d <= bal b1 a d) <-> forall a d, q_out ((f, t, cs) :: q) a d <= bal b a d)).
    { intros b1 E. split; [exact (moved_nonneg _ _ _ _ _ N E)|]. destruct (send_spec _ _ _ _ _ E) as (_ & (M1 & _) & L).
      assert (W : forall a d, a = t \/ (q_out q a d <= bal b1 a d <-> q_out ((f, t, cs) :: q) a d <= bal b a d)).
      { intros a d. destruct (addr_eqb_spec a t) as [|Nt]; [left; assumption|right]. rewrite Q, M1. unfold at_acc. destruct (addr_eqb_spec a t); [congruence|]. destruct (addr_eqb a f); lia. }
      split; intros H a d; destruct (W a d) as [->|W']; try (apply W'; apply H).
      - rewrite Q, Zt. unfold at_acc. destruct (addr_eqb_spec t f); [congruence|]. specialize (N t d). lia.
      - rewrite Zt. apply (moved_nonneg _ _ _ _ _ N E). }
    split.
    + intros (b' & H). destruct (send b f t cs) as [b1|] eqn:E; [|discriminate H]. destruct (SP b1 eq_refl) as [N1 I1]. apply I1. apply (IH b1 V2 O' N1). eauto.
    + intros H. destruct (send_ok b f t cs V1) as (b1 & E).
      { intros d Hd. specialize (H f d). rewrite Q in H. unfold at_acc in H. rewrite addr_eqb_refl in H. pose proof (proj1 (q_nonneg q f d V2)). lia. }
      rewrite E. destruct (SP b1 E) as [N1 I1]. apply (IH b1 V2 O' N1). apply I1. assumption.
Qed.

(** The queue built from a list of transfers. *)
Definition queue_all (l : bulk) : bulk := fold_left (fun q e => bulk_queue q (fst (fst e)) (snd (fst e)) (snd e)) l [].
Definition queued (e : addr * addr * coins) : bool := valid_coins (snd e).

Lemma queue_all_spec_aux l : forall q, q_valid q -> let r := fold_left (fun q e => bulk_queue q (fst (fst e)) (snd (fst e)) (snd e)) l q in
  q_valid r /\ (forall a d, q_out r a d = q_out q a d + q_out (filter queued l) a d) /\ (forall a d, q_in r a d = q_in q a d + q_in (filter queued l) a d).
Proof.
  induction l as [|[[f t] cs] l IH]; intros q V; cbn [fold_left].
  - cbn. split; [assumption|]. split; intros; unfold q_out, q_in; cbn; lia.
  - cbn [fst snd]. destruct (valid_coins cs) eqn:E.
    + replace (filter queued ((f, t, cs) :: l)) with ((f, t, cs) :: filter queued l) by (cbn [filter]; unfold queued at 2; cbn [snd]; rewrite E; reflexivity).
      destruct (bulk_queue_spec q f t cs V E) as (A & B & C). destruct (IH _ A) as (A' & B' & C'). split; [assumption|].
      split; intros a d; rewrite ?B', ?C', ?B, ?C; unfold q_out, q_in; cbn [map fst snd]; rewrite sumZ_cons; lia.
    + replace (filter queued ((f, t, cs) :: l)) with (filter queued l) by (cbn [filter]; unfold queued at 2; cbn [snd]; rewrite E; reflexivity).
      replace (bulk_queue q f t cs) with q by (unfold bulk_queue; rewrite E; reflexivity). apply IH. assumption.
Qed.
Lemma queue_all_spec l : q_valid (queue_all l) /\ (forall a d, q_out (queue_all l) a d = q_out (filter queued l) a d) /\ (forall a d, q_in (queue_all l) a d = q_in (filter queued l) a d).
Proof. destruct (queue_all_spec_aux l [] (Forall_nil _)) as (A & B & C). split; [exact A|]. split; intros; [apply B|apply C]. Qed.
Lemma queue_all_ends (P : addr -> addr -> Prop) l : Forall (fun e => P (fst (fst e)) (snd (fst e))) l -> Forall (fun e => P (fst (fst e)) (snd (fst e))) (queue_all l).
Proof.
  unfold queue_all. assert (G : forall q, Forall (fun e => P (fst (fst e)) (snd (fst e))) q -> Forall (fun e => P (fst (fst e)) (snd (fst e))) l -> Forall (fun e => P (fst (fst e)) (snd (fst e))) (fold_left (fun q e => bulk_queue q (fst (fst e)) (snd (fst e)) (snd e)) l q)).
  { induction l as [|e l IH]; intros q Hq F; cbn [fold_left]; [assumption|]. inversion F; subst. apply IH; [apply bulk_queue_ends; assumption|assumption]. }
  intros F. apply G; [constructor|assumption].
Qed.
