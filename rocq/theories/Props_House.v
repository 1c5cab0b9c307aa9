(** * C90: no live order or pending request is ever lost, and results stay until the next block *)
From Verif Require Import Base Dec OrderModel MatchModel MatchProofs KeeperModel KeeperLib KeeperSpec KeeperHist KeeperMicro KeeperBank KeeperInv KeeperSteps KeeperTrade KeeperSettle KeeperBlock KeeperExample HouseSpec Props_Own.

Lemma kept_by_keys Q c c' : reach (sane Q) c -> step (sane Q) c c' ->
  (forall k, mget (st_deps (snd c)) k <> None -> mget (st_deps (snd c')) k <> None) -> (forall k, mget (st_wds (snd c)) k <> None -> mget (st_wds (snd c')) k <> None) ->
  (forall k, mget (st_orders (snd c)) k <> None -> mget (st_orders (snd c')) k <> None) -> all_kept (snd c) (snd c').
Proof.
  intros R S A B C. pose proof (run_later Q _ _ R S) as L. split; [|split].
  - intros i j o G. unfold get_order in *. destruct (mget (st_orders (snd c')) (i, j)) as [o'|] eqn:E; [|destruct (C (i, j)); congruence]. exists o'. split; [reflexivity|].
    destruct (l_orders _ _ L i j o' E) as [(o0 & G0 & La)|(G0 & _)]; unfold get_order in G0; rewrite G in G0; [injection G0 as <-; exact La|discriminate G0].
  - intros i j r G. destruct (mget (st_deps (snd c')) (i, j)) as [r'|] eqn:E; [|destruct (A (i, j)); congruence]. exists r'. split; [reflexivity|].
    destruct (l_deps _ _ L i j r' E) as [(r0 & G0 & La)|(G0 & _)]; rewrite G in G0; [injection G0 as <-; exact La|discriminate G0].
  - intros i j r G. destruct (mget (st_wds (snd c')) (i, j)) as [r'|] eqn:E; [|destruct (B (i, j)); congruence]. exists r'. split; [reflexivity|].
    destruct (l_wds _ _ L i j r' E) as [(r0 & G0 & La)|(G0 & _)]; rewrite G in G0; [injection G0 as <-; exact La|discriminate G0].
Qed.

(** Messages and batches remove nothing: what has ended or been executed stays readable, unchanged, until
    the next block begins. *)
Theorem C90_kept : forall Q s c', reach (sane Q) (InBlock, s) -> step (sane Q) (InBlock, s) c' -> all_kept s (snd c').
Proof.
  intros Q s c' R S. pose proof (reach_okp Q _ R) as I. cbn [snd] in I. apply (kept_by_keys Q (InBlock, s) c' R S); cbn [snd]; inversion S as [|s0 m s' D Hq|iter s0 s' Hi D]; subst; cbn [snd].
  all: try (pose proof (deliver_mics (mkCtl (sane Q) SMsg) _ _ _ eq_refl I Hq D) as M; destruct (msg_keeps _ _ _ M (v_str _ _ I) eq_refl) as (A1 & A2 & A3 & _); intros k G X).
  all: try (destruct (end_block_mics (sane Q) iter s s' Hi I (fun p X => proj2 X) D) as (s1 & M1 & M2); destruct (batch_keys _ _ _ M1 (or_introl eq_refl)) as (B1 & B2 & B3); destruct (batch_keys _ _ _ M2 (or_intror eq_refl)) as (C1 & C2 & C3); intros k G).
  - destruct (mget (st_deps s) k) as [r|] eqn:E; [|contradiction]. rewrite (A1 _ _ E) in X. discriminate X.
  - apply C1, B1, G.
  - destruct (mget (st_wds s) k) as [r|] eqn:E; [|contradiction]. rewrite (A2 _ _ E) in X. discriminate X.
  - apply C2, B2, G.
  - destruct (mget (st_orders s) k) as [o|] eqn:E; [|contradiction]. destruct (A3 _ _ E) as (o' & G' & _). congruence.
  - apply C3, B3, G.
Qed.
Print Assumptions C90_kept.

(** When a block begins, exactly the ended orders and executed requests leave; nothing else changes. *)
Theorem C90_cleared : forall Q s t, reach (sane Q) (Between, s) -> let s' := begin_block s t in
  (forall i j o, get_order s' i j = Some o <-> get_order s i j = Some o /\ live o = true) /\
  (forall i j r, mget (st_deps s') (i, j) = Some r <-> mget (st_deps s) (i, j) = Some r /\ dr_status r = RNotExecuted) /\
  (forall i j r, mget (st_wds s') (i, j) = Some r <-> mget (st_wds s) (i, j) = Some r /\ wr_status r = RNotExecuted) /\
  only_records s s'.
Proof.
  intros Q s t R s'. destruct (begin_block_facts s t (reach_str Q _ R)) as (A & B & C & _). subst s'. split; [intros i j o; apply C|]. split; [intros i j r; apply A|]. split; [intros i j r; apply B|].
  unfold begin_block. destruct (delete_outdated_eq (set_clock s (st_height s + 1) t)) as (f & -> & _). unfold only_records. cbn. auto 12.
Qed.
Print Assumptions C90_cleared.

Lemma moment_more Q c c1 c2 (P : state -> Prop) : at_some_moment Q c c1 P -> step Q c1 c2 -> at_some_moment Q c c2 P.
Proof. intros (d & A & B & H) S. exists d. split; [exact A|]. split; [|exact H]. exact (Runs_step Q d c1 c2 B S). Qed.

(** Over any stretch of history: an order is still stored, or at some moment on the way it was stored with a
    final status (so whatever it was owed was decided then); it never just vanishes. *)
Theorem C90_order_never_lost : forall Q c c' i j o, reach (sane Q) c -> runs (sane Q) c c' -> get_order (snd c) i j = Some o ->
  (exists o', get_order (snd c') i j = Some o' /\ order_later o o') \/
  at_some_moment (sane Q) c c' (fun s => exists o', get_order s i j = Some o' /\ order_later o o' /\ live o' = false).
Proof.
  intros Q c c' i j o R H G. induction H as [c|c c2 c3 H IH S]; [left; exists o; split; [exact G|apply order_later_refl]|].
  specialize (IH R G). destruct IH as [(o2 & G2 & L2)|M]; [|right; exact (moment_more _ _ _ _ _ M S)]. pose proof (reach_runs _ _ _ R H) as R2. destruct c2 as [ph s2]. cbn [snd] in *. destruct ph.
  - inversion S as [s t T| |]; subst. cbn [snd]. destruct (C90_cleared Q s2 t R2) as (A & _). destruct (live o2) eqn:Lv.
    + left. exists o2. split; [apply A; auto|exact L2].
    + right. exists (Between, s2). split; [exact H|]. split; [exact (Runs_step _ _ _ _ (Runs_refl _ _) S)|]. exists o2. auto.
  - destruct (C90_kept Q s2 c3 R2 S) as (A & _). destruct (A i j o2 G2) as (o3 & G3 & L3). left. exists o3. split; [exact G3|]. exact (order_later_trans _ _ _ L2 L3).
Qed.
Print Assumptions C90_order_never_lost.

(** The same for requests. *)
Theorem C90_request_never_lost : forall Q c c' i j, reach (sane Q) c -> runs (sane Q) c c' ->
  (forall r, mget (st_deps (snd c)) (i, j) = Some r -> (exists r', mget (st_deps (snd c')) (i, j) = Some r' /\ dep_later r r') \/
     at_some_moment (sane Q) c c' (fun s => exists r', mget (st_deps s) (i, j) = Some r' /\ dep_later r r' /\ dr_status r' <> RNotExecuted)) /\
  (forall r, mget (st_wds (snd c)) (i, j) = Some r -> (exists r', mget (st_wds (snd c')) (i, j) = Some r' /\ wd_later r r') \/
     at_some_moment (sane Q) c c' (fun s => exists r', mget (st_wds s) (i, j) = Some r' /\ wd_later r r' /\ wr_status r' <> RNotExecuted)).
Proof.
  intros Q c c' i j R H. split; intros r G.
  - induction H as [c|c c2 c3 H IH S]; [left; exists r; split; [exact G|apply dep_later_refl]|].
    specialize (IH R G). destruct IH as [(o2 & G2 & L2)|M]; [|right; exact (moment_more _ _ _ _ _ M S)]. pose proof (reach_runs _ _ _ R H) as R2. destruct c2 as [ph s2]. cbn [snd] in *. destruct ph.
    + inversion S as [s t T| |]; subst. cbn [snd]. destruct (C90_cleared Q s2 t R2) as (_ & A & _). destruct (pending (dr_status o2)) eqn:Lv.
      * left. exists o2. split; [apply A; split; [exact G2|destruct (dr_status o2); [reflexivity|discriminate Lv|discriminate Lv]]|exact L2].
      * right. exists (Between, s2). split; [exact H|]. split; [exact (Runs_step _ _ _ _ (Runs_refl _ _) S)|]. exists o2. split; [exact G2|]. split; [exact L2|]. intros X. rewrite X in Lv. discriminate Lv.
    + destruct (C90_kept Q s2 c3 R2 S) as (_ & A & _). destruct (A i j o2 G2) as (o3 & G3 & L3). left. exists o3. split; [exact G3|]. exact (dep_later_trans _ _ _ L2 L3).
  - induction H as [c|c c2 c3 H IH S]; [left; exists r; split; [exact G|apply wd_later_refl]|].
    specialize (IH R G). destruct IH as [(o2 & G2 & L2)|M]; [|right; exact (moment_more _ _ _ _ _ M S)]. pose proof (reach_runs _ _ _ R H) as R2. destruct c2 as [ph s2]. cbn [snd] in *. destruct ph.
    + inversion S as [s t T| |]; subst. cbn [snd]. destruct (C90_cleared Q s2 t R2) as (_ & _ & A & _). destruct (pending (wr_status o2)) eqn:Lv.
      * left. exists o2. split; [apply A; split; [exact G2|destruct (wr_status o2); [reflexivity|discriminate Lv|discriminate Lv]]|exact L2].
      * right. exists (Between, s2). split; [exact H|]. split; [exact (Runs_step _ _ _ _ (Runs_refl _ _) S)|]. exists o2. split; [exact G2|]. split; [exact L2|]. intros X. rewrite X in Lv. discriminate Lv.
    + destruct (C90_kept Q s2 c3 R2 S) as (_ & _ & A). destruct (A i j o2 G2) as (o3 & G3 & L3). left. exists o3. split; [exact G3|]. exact (wd_later_trans _ _ _ L2 L3).
Qed.
Print Assumptions C90_request_never_lost.

(** trade4 cancels order 3 of pair 1 in a block: it is stored, ended, after that block's batch, and gone when
    the next block begins; orders 1 and 2 had been traded before. *)
Definition status_of (s : state) (i j : Z) : option ostatus := match get_order s i j with Some o => Some (ko_status o) | None => None end.
Example C90_example : let s i := snd (after 1 i) in
  (status_of (s trade3) 1 3, status_of (s trade4) 1 3, status_of (s (trade4 ++ [AEnd])) 1 3, status_of (s trade5) 1 3) = (Some ONotMatched, Some OCanceled, Some OCanceled, None).
Proof. vm_compute. reflexivity. Qed.
Example C90_example_reach : reach (sane any_params) (after 1 trade3) /\ runs (sane any_params) (after 1 trade3) (after 1 (trade3 ++ [AMsg (MCancelOrder 1 1 3); AEnd; ABegin 90])).
Proof. split; [apply after_reach; reflexivity|apply after_app; vm_compute; reflexivity]. Qed.
