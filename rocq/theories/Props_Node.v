(** ** C73: all nodes compute the same state *)
From Coq Require Import Permutation.
From Verif Require Import Base Dec TickModel OrderModel MatchModel MatchSpec MatchProofs PoolModel KeeperModel KeeperLib KeeperSpec KeeperMicro KeeperInv KeeperBank KeeperTrade KeeperHist KeeperIter NodeSpec
  KeeperExample KeeperChk OverflowSpec Props_Overflow.

(** The end blocker, whether it completes or fails, does not depend on map iteration order. *)
Theorem C73_end_block : forall Q s iter1 iter2, reach (sane Q) (InBlock, s) -> is_perm_iter iter1 -> is_perm_iter iter2 -> end_block iter1 s = end_block iter2 s.
Proof.
  intros Q s i1 i2 R H1 H2. pose proof (reach_okp Q _ R) as I. cbn [snd] in I.
  rewrite (end_block_iter (sane Q) i1 s H1 I (fun p H => proj2 H)), (end_block_iter (sane Q) i2 s H2 I (fun p H => proj2 H)). reflexivity.
Qed.
Print Assumptions C73_end_block.
(** The same with overflow checks, within the size bound of C72. *)
Theorem C73_end_block_checked : forall Q s iter1 iter2, reach (sane Q) (InBlock, s) -> pm_tick_prec (st_params s) <= 88 -> (forall i pr, get_pair s i = Some pr -> roomy s pr) ->
  is_perm_iter iter1 -> is_perm_iter iter2 -> end_block_c iter1 s = end_block_c iter2 s.
Proof.
  intros Q s i1 i2 R Hp Ro H1 H2. rewrite (C72_no_overflow Q s i1 R Hp Ro H1), (C72_no_overflow Q s i2 R Hp Ro H2). exact (C73_end_block Q s i1 i2 R H1 H2).
Qed.
Print Assumptions C73_end_block_checked.

Lemma node_step_runs (Q : params -> Prop) iter c i c' : is_perm_iter iter -> (forall p, i = IMsg (MUpdateParams p) -> Q p) -> node_step iter c i = Some c' -> runs Q c c'.
Proof.
  intros Hi HQ H. destruct i as [t|m|], c as [[|] s]; cbn [node_step] in H; try discriminate H.
  - destruct (Z.leb_spec (st_time s) t) as [L|L]; [|discriminate H]. injection H as <-. eapply Runs_step; [constructor|constructor; exact L].
  - injection H as <-. destruct (deliver s m) as [s'|] eqn:E; [|constructor]. eapply Runs_step; [constructor|]. econstructor; [exact E|]. intros p ->. apply HQ. reflexivity.
  - destruct (end_block iter s) as [s'|] eqn:E; [|discriminate H]. injection H as <-. eapply Runs_step; [constructor|]. exact (Step_end Q iter s s' Hi E).
Qed.

(** Two nodes replaying the same input from the same genesis end in the same state, or both halt. *)
Theorem C73_nodes_agree : forall Q s0 l iters1 iters2, genesis (sane Q) s0 -> params_within (sane Q) l ->
  (forall n, is_perm_iter (iters1 n)) -> (forall n, is_perm_iter (iters2 n)) ->
  node_run iters1 0 (Between, s0) l = node_run iters2 0 (Between, s0) l.
Proof.
  intros Q s0 l i1 i2 G W H1 H2.
  assert (X : forall l n c, reach (sane Q) c -> params_within (sane Q) l -> node_run i1 n c l = node_run i2 n c l).
  { clear l W. induction l as [|i l IH]; intros n c R W; cbn [node_run]; [reflexivity|].
    assert (E : node_step (i1 n) c i = node_step (i2 n) c i).
    { destruct i as [t|m|], c as [[|] s]; cbn [node_step]; try reflexivity. rewrite (C73_end_block Q s (i1 n) (i2 n) R (H1 n) (H2 n)). reflexivity. }
    rewrite E. destruct (node_step (i2 n) c i) as [c'|] eqn:E2; [|reflexivity]. apply IH; [|intros p Hp; apply W; right; exact Hp].
    apply (reach_runs _ c c' R). apply (node_step_runs _ (i2 n) c i c' (H2 n)); [|exact E2]. intros p ->. apply W. left. reflexivity. }
  apply X; [|exact W]. exists s0. split; [exact G|constructor].
Qed.
Print Assumptions C73_nodes_agree.

(** Three sell orders of one batch share 100000 coins bought; the second message fails; the iteration
    order is reversed on one node. *)
Definition shared : list input :=
  [IBegin 5; IMsg (MCancelOrder 1 7 7); IMsg (MCreatePair 1 (Coin 1) (Coin 2));
   IMsg (MLimitOrder 1 1 Sell (Coin 1) 100001 (Coin 2) P18 100001 3600); IMsg (MLimitOrder 2 1 Sell (Coin 1) 90003 (Coin 2) P18 90003 3600); IMsg (MLimitOrder 3 1 Sell (Coin 1) 70007 (Coin 2) P18 70007 3600);
   IMsg (MLimitOrder 3 1 Buy (Coin 2) 100000 (Coin 1) P18 100000 3600); IEnd; IBegin 9; IMsg (MLimitOrder 2 1 Buy (Coin 2) 50001 (Coin 1) P18 50001 3600); IEnd].
Definition open_amounts (o : option config) : list Z := match o with Some (_, s) => map (fun kv => ko_open (snd kv)) (st_orders s) | None => [] end.
Example C73_nodes_agree_example : genesis (sane any_params) (ex_start 1) /\ params_within (sane any_params) shared /\ is_perm_iter (@rev (nat * Z)) /\ is_perm_iter idl /\
  open_amounts (node_run (fun _ => idl) 0 (Between, ex_start 1) shared) = [42308; 38081; 29621; 0] /\
  open_amounts (node_run (fun n => if Nat.even n then @rev (nat * Z) else idl) 0 (Between, ex_start 1) shared) = [42308; 38081; 29621; 0].
Proof.
  split; [apply ex_genesis; reflexivity|]. split; [intros p H; exfalso; cbn [shared In] in H; repeat (destruct H as [H|H]; [discriminate H|]); destruct H|].
  split; [intros l; apply Permutation_sym, Permutation_rev|]. split; [exact idl_perm|]. split; vm_compute; reflexivity.
Qed.
