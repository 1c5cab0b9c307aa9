(** * C44: exported state can be imported *)
From Coq Require Import List ZArith Lia Bool.
From Verif Require Import Base Dec OrderModel MatchModel PoolModel KeeperModel KeeperSpec KeeperLib KeeperMicro KeeperBank KeeperTrade KeeperHist KeeperBlock KeeperExample
  GenesisModel GenesisSpec GenesisProofs.
Import ListNotations.
Local Open Scope Z_scope.

(** C44.  At every point of every history begun after the zero time: the exported genesis is
    accepted exactly when every stored deposit request offers both coins of its pair, and if it is
    accepted, importing it on a chain with the same balances and clock gives the same state.
    The full claim (always accepted) is refuted below.  Missing: indexes that only serve queries. *)
Theorem C44_export_import_partial Q zero s0 ph s mm : genesis (sane Q) s0 -> zero < st_time s0 -> runs (sane Q) (Between, s0) (ph, s) -> lists_counters s mm ->
  (genesis_valid zero (export_genesis s mm) = true <-> deposits_two_sided s) /\
  (deposits_two_sided s -> exists s', init_genesis zero (st_bank s) (st_height s) (st_time s) (export_genesis s mm) = Some s' /\ same_state s s') /\
  (~ deposits_two_sided s -> init_genesis zero (st_bank s) (st_height s) (st_time s) (export_genesis s mm) = None).
Proof.
  intros G T R L. assert (RC : reach (sane Q) (ph, s)) by (exists s0; auto). pose proof (reach_okp Q _ RC) as I. destruct (stored_history Q zero s0 _ G T R) as (O & _). cbn [snd] in *.
  pose proof (export_valid _ zero s mm I O L) as V. rewrite init_genesis_eq. split; [exact V|]. split.
  - intros D. rewrite (proj2 V D). eexists. split; [reflexivity|]. apply import_export; [exact (v_str _ _ I)|exact L].
  - intros D. destruct (genesis_valid zero _); [destruct (D (proj1 V eq_refl))|reflexivity].
Qed.
Print Assumptions C44_export_import_partial.

(** The list of counters the theorem speaks of exists in every reachable state. *)
Theorem C44_counters_listed Q c : reach (sane Q) c -> exists mm, lists_counters (snd c) mm.
Proof. intros R. exact (counters_listed _ _ (reach_okp Q c R) (reach_mm Q c R)). Qed.
Print Assumptions C44_counters_listed.

(** Two executed requests, two pools, a limit order and two market making orders of user 1. *)
Definition stored_history_ex : list action := pools3 ++ [ABegin 15; AMsg (MMMOrder 1 1 Buy (Coin 2) 500000 (Coin 1) (P18 * 45 / 100) 100000 3600);
   AMsg (MMMOrder 1 1 Sell (Coin 1) 500000 (Coin 2) (P18 * 55 / 100) 100000 60); AMsg (MLimitOrder 2 1 Buy (Coin 2) 70000 (Coin 1) (P18 * 46 / 100) 140000 3600);
   AMsg (MDeposit 2 2 [(Coin 1, 100000); (Coin 2, 60000)])].
Lemma after_runs batch l : 0 < batch -> genesis (sane any_params) (ex_start batch) /\ runs (sane any_params) (Between, ex_start batch) (after batch l).
Proof. intros H. split; [apply ex_genesis; exact H|]. apply play_runs. Qed.
Lemma no_counters Q c : reach (sane Q) c -> st_orders (snd c) = [] -> lists_counters (snd c) [].
Proof.
  intros R E. split; [constructor|]. intros a i n. split; [intros []|]. intros [X Y]. apply Y. rewrite <- X, (reach_mm Q c R a i). unfold live_mm_orders, order_sum. rewrite E. reflexivity.
Qed.
Example C44_example : let c := after 1 stored_history_ex in
  lists_counters (snd c) [((User 1, 1), 2)] /\ deposits_two_sided (snd c) /\ (length (st_orders (snd c)) = 3)%nat /\ (length (st_deps (snd c)) = 1)%nat /\ (length (st_pools (snd c)) = 2)%nat /\
  is_some (init_genesis (-1) (st_bank (snd c)) (st_height (snd c)) (st_time (snd c)) (export_genesis (snd c) [((User 1, 1), 2)])) = true.
Proof.
  cbv zeta.
  assert (F : let c := after 1 stored_history_ex in
    map (fun kv => (ko_owner (snd kv), ko_pair (snd kv), live (snd kv), ko_type (snd kv))) (st_orders (snd c)) =
      [(User 1, 1, true, TMM); (User 1, 1, true, TMM); (User 2, 1, true, TLimit)] /\
    genesis_valid (-1) (export_genesis (snd c) [((User 1, 1), 2)]) = true /\
    (length (st_orders (snd c)) = 3)%nat /\ (length (st_deps (snd c)) = 1)%nat /\ (length (st_pools (snd c)) = 2)%nat) by (vm_compute; repeat split).
  destruct F as (F1 & F2 & F3 & F4 & F5). destruct (after_runs 1 stored_history_ex ltac:(lia)) as [G R]. pose proof (after_reach 1 stored_history_ex ltac:(lia)) as RC.
  assert (L : lists_counters (snd (after 1 stored_history_ex)) [((User 1, 1), 2)]).
  { split; [repeat constructor; intros []|]. intros a i n. rewrite (reach_mm _ _ RC a i).
    assert (E : map (fun kv => (ko_owner (snd kv), ko_pair (snd kv), live (snd kv), ko_type (snd kv))) (st_orders (snd (after 1 stored_history_ex))) =
      [(User 1, 1, true, TMM); (User 1, 1, true, TMM); (User 2, 1, true, TLimit)]) by exact F1.
    unfold live_mm_orders, order_sum. remember (st_orders (snd (after 1 stored_history_ex))) as m eqn:Em. clear Em R G RC F1 F2 F3 F4 F5.
    destruct m as [|o1 [|o2 [|o3 [|]]]]; try discriminate E. cbn [map] in E. injection E as A1 A2 A3 A4 B1 B2 B3 B4 C1 C2 C3 C4. cbn [map sumZ]. rewrite A1, A2, A3, A4, B1, B2, B3, B4, C1, C2, C3, C4.
    cbn [andb]. split.
    - intros [X|[]]. injection X as <- <- <-. split; [vm_compute; reflexivity|discriminate].
    - intros [X Y]. left. destruct (addr_eqb_spec a (User 1)) as [->|N1].
      + destruct (Z.eqb_spec 1 i) as [<-|N2].
        * cbn in X. rewrite <- X. reflexivity.
        * cbn in X. congruence.
      + exfalso. apply Y. rewrite <- X. cbn [andb]. destruct (addr_eqb a (User 2)), (1 =? i); reflexivity. }
  split; [exact L|]. assert (V : genesis_valid (-1) (export_genesis (snd (after 1 stored_history_ex)) [((User 1, 1), 2)]) = true) by exact F2.
  clear F1 F2. split; [|split; [exact F3|split; [exact F4|split; [exact F5|]]]].
  - clear F3 F4 F5. destruct (after 1 stored_history_ex) as [ph s] eqn:Ea. cbn [snd] in *. exact (proj1 (proj1 (C44_export_import_partial any_params (-1) (ex_start 1) ph s _ G (eq_refl : -1 < 0) R L)) V).
  - rewrite init_genesis_eq, V. reflexivity.
Qed.

(** Refuted: a deposit of one coin into a ranged pool is accepted and stored, and until the next
    block the exported genesis is rejected, so InitGenesis panics. *)
Definition one_sided : list action := pools2 ++ [AMsg (MDeposit 2 2 [(Coin 1, 100000000)]); AEnd].
Theorem C44_refuted : exists ph s s0 mm, genesis (sane any_params) s0 /\ -1 < st_time s0 /\ runs (sane any_params) (Between, s0) (ph, s) /\ ph = Between /\ lists_counters s mm /\
  genesis_valid (-1) (export_genesis s mm) = false /\ init_genesis (-1) (st_bank s) (st_height s) (st_time s) (export_genesis s mm) = None.
Proof.
  destruct (after_runs 1 one_sided ltac:(lia)) as [G R]. pose proof (after_reach 1 one_sided ltac:(lia)) as RC.
  assert (F : let c := after 1 one_sided in st_orders (snd c) = [] /\ genesis_valid (-1) (export_genesis (snd c) []) = false /\ fst c = Between) by (vm_compute; repeat split).
  destruct F as (E & V & P). pose proof (no_counters _ _ RC E) as L.
  destruct (after 1 one_sided) as [ph s]. cbn [fst snd] in *. exists ph, s, (ex_start 1), [].
  split; [exact G|]. split; [reflexivity|]. split; [exact R|]. split; [exact P|]. split; [exact L|]. split; [exact V|]. rewrite init_genesis_eq, V. reflexivity.
Qed.
Print Assumptions C44_refuted.
