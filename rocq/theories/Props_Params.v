(** * C89: the parameters in force are the last ones accepted, and they make sense *)
From Coq Require Import String.
From Verif Require Import Base Dec OrderModel MatchModel KeeperModel KeeperLib KeeperSpec KeeperHist KeeperMicro KeeperParams KeeperExample AuthorityModel ParamsSpec.

Lemma proper_coins_iff cs : valid_coins cs = true <-> proper_coins cs.
Proof.
  unfold proper_coins. induction cs as [|[d x] cs IH]; cbn [valid_coins map fst]; [split; [split; constructor|reflexivity]|].
  rewrite !andb_true_iff, IH, negb_true_iff, Z.ltb_lt. assert (X : has_denom cs d = false <-> ~ In d (map fst cs)).
  { unfold has_denom. split.
    - intros F N. apply in_map_iff in N. destruct N as (c & E & Ic). assert (T : existsb (fun c => denom_eqb d (fst c)) cs = true) by (apply existsb_exists; exists c; split; [exact Ic|]; rewrite E; apply denom_eqb_refl). congruence.
    - intros N. apply not_true_is_false. intros T. apply existsb_exists in T. destruct T as (c & Ic & E). destruct (denom_eqb_spec d (fst c)) as [E1|]; [|discriminate E]. apply N. rewrite E1. apply in_map. exact Ic. }
  rewrite X. split.
  - intros ((A & B) & C & D). split; constructor; assumption.
  - intros (A & B). inversion A; subst. inversion B; subst. auto.
Qed.
Lemma sound_iff p : valid_params p = true <-> sound_params p.
Proof. unfold valid_params, sound_params. rewrite !andb_true_iff, !proper_coins_iff, !Z.ltb_lt, !Z.leb_le. intuition. Qed.

(** An update is accepted exactly when the new parameters make sense; it puts them in force and changes
    nothing else. *)
Theorem C89_update : forall s p s', deliver s (MUpdateParams p) = Some s' <-> sound_params p /\ st_params s' = p /\ only_params s s'.
Proof.
  intros s p s'. unfold deliver. cbn [validate_basic handle]. rewrite <- sound_iff. split.
  - destruct (valid_params p); [|discriminate]. intros H. injection H as <-. split; [reflexivity|]. split; [reflexivity|]. unfold only_params. cbn. auto 20.
  - intros (-> & E & A1 & A2 & A3 & A4 & A5 & A6 & A7 & A8 & A9 & A10 & A11 & A12 & A13 & A14). f_equal. destruct s'. cbn in *. unfold set_params. subst. reflexivity.
Qed.
Print Assumptions C89_update.

(** Every other message, and every block boundary, leaves them alone: no assumption on the state. *)
Theorem C89_fixed : forall s, (forall m s', (forall p, m <> MUpdateParams p) -> deliver s m = Some s' -> st_params s' = st_params s) /\
  (forall t, st_params (begin_block s t) = st_params s) /\ (forall iter s', end_block iter s = Some s' -> st_params s' = st_params s).
Proof.
  intros s. split; [|split].
  - intros m s' N H. unfold deliver in H. destruct (validate_basic m); [|discriminate H]. exact (kp_handle _ _ _ H N).
  - intros t. apply kp_begin_block.
  - intros iter s' H. exact (kp_end_block _ _ _ H).
Qed.
Print Assumptions C89_fixed.

(** In every history the parameters in force are those last accepted, and they make sense. *)
Theorem C89_in_force : forall Q p c, governed Q p c -> st_params (snd c) = p /\ sound_params p /\ Q p.
Proof.
  intros Q p c G. induction G as [p b h t G|p0 p s s' G IH Hq D|p s t G IH T|p s m s' G IH N D|p iter s s' G IH Hi D]; cbn [snd] in *.
  - destruct G as (p' & b' & h' & t' & V & Hq & _ & _ & E). apply (f_equal st_params) in E. cbn in E. subst p'. split; [reflexivity|]. split; [apply sound_iff; exact V|exact Hq].
  - apply C89_update in D. destruct D as (A & B & _). auto.
  - destruct (C89_fixed s) as (_ & B & _). rewrite B. exact IH.
  - destruct (C89_fixed s) as (A & _ & _). rewrite (A m s' N D). exact IH.
  - destruct (C89_fixed s) as (_ & _ & C). rewrite (C iter s' D). exact IH.
Qed.
Print Assumptions C89_in_force.
(** Every history is one of these. *)
Theorem C89_always : forall Q c, reach Q c <-> exists p, governed Q p c.
Proof.
  intros Q c. split.
  - revert c. apply (reach_config Q (fun c => exists p, governed Q p c)).
    + intros s G. pose proof G as (p & b & h & t & _ & _ & _ & _ & E). subst s. exists p. constructor. exact G.
    + intros c c' _ S (p & G). inversion S as [s t T|s m s' D Hq|iter s s' Hi D]; subst.
      * exists p. constructor; assumption.
      * destruct m eqn:Em; try (exists p; eapply Gov_msg; [exact G| |exact D]; intros p' X; discriminate X). eexists. eapply Gov_update; [exact G|apply Hq; reflexivity|exact D].
      * exists p. eapply Gov_end; eassumption.
  - intros (p & G). induction G as [p b h t G|p0 p s s' G IH Hq D|p s t G IH T|p s m s' G IH N D|p iter s s' G IH Hi D].
    + exists (init_state p b h t). split; [exact G|constructor].
    + apply (reach_step Q _ _ IH). eapply Step_msg; [exact D|]. intros p' X. injection X as <-. exact Hq.
    + apply (reach_step Q _ _ IH). constructor. exact T.
    + apply (reach_step Q _ _ IH). eapply Step_msg; [exact D|]. intros p' X. destruct (N _ X).
    + apply (reach_step Q _ _ IH). eapply Step_end; eassumption.
Qed.
Print Assumptions C89_always.

(** C86: what the handler of the message checks.  With any keeper, also one whose authority is set: accepted
    exactly when the sender is the stored authority and the parameters make sense. *)
Theorem C86_check : forall k s sender p s', update_params k s sender p = Some s' <-> sender = get_authority k /\ sound_params p /\ st_params s' = p /\ only_params s s'.
Proof.
  intros k s sender p s'. rewrite <- C89_update. unfold update_params, deliver. cbn [validate_basic handle]. destruct (String.eqb_spec (get_authority k) sender) as [E|N]; cbn [negb].
  - split; [intros H; split; [congruence|exact H]|intros (_ & H); exact H].
  - split; [discriminate|intros (E & _); congruence].
Qed.
Print Assumptions C86_check.

(** The batch size is changed from 1 to 2 by the message and not by a batch; a batch size of 0 is refused. *)
Example C89_example : let s := begin_block (ex_start 1) 1 in
  match deliver s (MUpdateParams (ex_params 2)) with
  | Some s' => match end_block idl s' with Some s'' => (pm_batch_size (st_params s) =? 1) && (pm_batch_size (st_params s'') =? 2) | None => false end
  | None => false end = true /\ deliver s (MUpdateParams (ex_params 0)) = None.
Proof. vm_compute. split; reflexivity. Qed.
Example C89_example_governed : governed (sane any_params) (ex_params 2) (InBlock, set_params (begin_block (ex_start 1) 1) (ex_params 2)).
Proof.
  apply (Gov_update (sane any_params) (ex_params 1) (ex_params 2) (begin_block (ex_start 1) 1)); [|split; [exact Logic.I|reflexivity]|reflexivity].
  apply Gov_begin; [|vm_compute; discriminate]. apply Gov_genesis. apply (ex_genesis 1). reflexivity.
Qed.
