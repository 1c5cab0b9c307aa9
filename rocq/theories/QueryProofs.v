(** Pagination gives every matching entry once, in order. *)
From Verif Require Import Base KeeperModel KeeperLib QueryModel QuerySpec.
From Coq Require Import Sorting.Sorted Wf_nat.

Lemma walk_det {A} (q : page_req -> option (list A * page_res)) limit count k p1 : walk q limit count k p1 -> forall p2, walk q limit count k p2 -> p1 = p2.
Proof.
  induction 1 as [k i t E|k i k' t r E W IH]; intros p2 H2; inversion H2; subst; congruence || (f_equal; [congruence|]).
  apply IH. congruence.
Qed.

(** All the responses of a list of entries. *)
Fixpoint all_resp {V A} (resp : key * V -> option A) (l : amap V) : option (list A) :=
  match l with [] => Some [] | e :: t => do a <- resp e; do r <- all_resp resp t; Some (a :: r) end.
Lemma all_resp_app {V A} (resp : key * V -> option A) l1 l2 : all_resp resp (l1 ++ l2) = do a <- all_resp resp l1; do b <- all_resp resp l2; Some (a ++ b).
Proof.
  induction l1 as [|e l1 IH]; cbn [all_resp app]; [destruct (all_resp resp l2); reflexivity|]. destruct (resp e); [|reflexivity]. rewrite IH. destruct (all_resp resp l1); [|reflexivity]. destruct (all_resp resp l2); reflexivity.
Qed.
Lemma all_resp_length {V A} (resp : key * V -> option A) l : forall r, all_resp resp l = Some r -> length r = length l.
Proof.
  induction l as [|e l IH]; intros r H; cbn [all_resp] in H; [injection H as <-; reflexivity|]. destruct (resp e); [|discriminate H]. destruct (all_resp resp l) as [r'|]; [|discriminate H].
  injection H as <-. cbn. rewrite (IH r' eq_refl). reflexivity.
Qed.

(** A page from a start key. *)
Lemma page_key_spec {V A} (hit : key * V -> bool) (resp : key * V -> option A) limit l : forall hits all, hits <= limit -> all_resp resp (filter hit l) = Some all ->
  exists l1 l2 items rest, l = l1 ++ l2 /\ all_resp resp (filter hit l1) = Some items /\ all_resp resp (filter hit l2) = Some rest /\
    page_key hit resp limit hits l = Some (items, match l2 with [] => None | e :: _ => Some (fst e) end) /\
    Z.of_nat (length items) <= limit - hits /\ (hits < limit -> l <> [] -> l1 <> []).
Proof.
  induction l as [|e l IH]; intros hits all L R.
  - exists [], [], [], []. cbn. repeat (split; [reflexivity|]). split; [lia|]. intros _ N. contradiction.
  - cbn [page_key]. destruct (Z.eqb_spec hits limit) as [E|E].
    + exists [], (e :: l), [], all. split; [reflexivity|]. split; [reflexivity|]. split; [exact R|]. split; [reflexivity|]. split; [cbn; lia|]. lia.
    + cbn [filter] in R. destruct (hit e) eqn:H.
      * cbn [all_resp] in R. destruct (resp e) as [a|] eqn:Ra; [|discriminate R]. destruct (all_resp resp (filter hit l)) as [r|] eqn:Rr; [|discriminate R]. injection R as <-.
        destruct (IH (hits + 1) r ltac:(lia) eq_refl) as (l1 & l2 & items & rest & El & R1 & R2 & P & B & _).
        exists (e :: l1), l2, (a :: items), rest. split; [rewrite El; reflexivity|]. split; [cbn [filter]; rewrite H; cbn [all_resp]; rewrite Ra, R1; reflexivity|].
        split; [exact R2|]. split; [rewrite P; reflexivity|]. split; [cbn [length]; lia|]. discriminate.
      * destruct (IH hits all L R) as (l1 & l2 & items & rest & El & R1 & R2 & P & B & _).
        exists (e :: l1), l2, items, rest. split; [rewrite El; reflexivity|]. split; [cbn [filter]; rewrite H; exact R1|]. split; [exact R2|]. split; [exact P|]. split; [exact B|]. discriminate.
Qed.

(** A page by offset: [next] already known, everything needed already taken. *)
Lemma page_off_done {V A} (hit : key * V -> bool) (resp : key * V -> option A) offset last count l : forall hits k, last < hits ->
  exists hits', page_off hit resp offset last count hits (Some k) l = Some ([], (Some k, hits')) /\ (count = true -> hits' = hits + Z.of_nat (length (filter hit l))).
Proof.
  induction l as [|e l IH]; intros hits k L; cbn [page_off filter].
  - exists hits. split; [reflexivity|]. cbn. lia.
  - assert (X : (offset <=? hits) && (hits <? last) && hit e = false) by (destruct (Z.ltb_spec hits last); [lia|]; rewrite andb_false_r; reflexivity). rewrite X.
    assert (Y : forall b : bool, (if b then match Some k with None => Some (fst e) | Some _ => Some k end else Some k) = Some k) by (intros []; reflexivity). rewrite Y.
    destruct (((if hit e then hits + 1 else hits) =? last + 1) && negb count) eqn:B.
    + eexists. split; [reflexivity|]. intros ->. rewrite andb_false_r in B. discriminate B.
    + destruct (IH (if hit e then hits + 1 else hits) k ltac:(destruct (hit e); lia)) as (h' & E & C). rewrite E. exists h'. split; [reflexivity|].
      intros Hc. specialize (C Hc). destruct (hit e); cbn [length]; lia.
Qed.
Lemma page_off_spec {V A} (hit : key * V -> bool) (resp : key * V -> option A) offset last count l : offset <= last -> forall hits all, 0 <= hits <= last -> all_resp resp (filter hit l) = Some all ->
  exists l1 l2 hits' rest, l = l1 ++ l2 /\
    all_resp resp (filter hit l2) = Some rest /\ all = firstn (Z.to_nat (last - hits)) all ++ rest /\
    all_resp resp (filter hit l1) = Some (firstn (Z.to_nat (last - hits)) all) /\
    page_off hit resp offset last count hits None l =
      Some (firstn (Z.to_nat (last - Z.max hits offset)) (skipn (Z.to_nat (offset - hits)) all), (match l2 with [] => None | e :: _ => Some (fst e) end, hits')) /\
    (count = true -> hits' = hits + Z.of_nat (length all)) /\ (l2 = [] <-> hits + Z.of_nat (length all) <= last).
Proof.
  intros OL. induction l as [|e l IH]; intros hits all H R.
  - cbn in R. injection R as <-. exists [], [], hits, []. cbn [page_off app filter all_resp]. rewrite skipn_nil, !firstn_nil. do 5 (split; [reflexivity|]). cbn. split; [lia|]. split; [lia|reflexivity].
  - cbn [filter] in R. destruct (hit e) eqn:He.
    + cbn [all_resp] in R. destruct (resp e) as [a|] eqn:Ra; [|discriminate R]. destruct (all_resp resp (filter hit l)) as [r|] eqn:Rr; [|discriminate R]. injection R as <-.
      cbn [page_off]. rewrite He. cbn [andb]. rewrite andb_true_r.
      destruct (Z.eq_dec hits last) as [E|E].
      * (* the entry after the page *)
        subst last. exists [], (e :: l). rewrite Z.sub_diag. replace (Z.to_nat (hits - Z.max hits offset)) with 0%nat by lia. cbn [firstn Z.to_nat app].
        assert (X : (offset <=? hits) && (hits <? hits) = false) by (rewrite Z.ltb_irrefl, andb_false_r; reflexivity). rewrite X, Z.eqb_refl. cbn [andb].
        destruct count; cbn [negb].
        -- destruct (page_off_done hit resp offset hits true l (hits + 1) (fst e) ltac:(lia)) as (h' & P & C). rewrite P. exists h', (a :: r).
           split; [reflexivity|]. split; [cbn [filter]; rewrite He; cbn [all_resp]; rewrite Ra, Rr; reflexivity|]. split; [reflexivity|]. split; [reflexivity|]. split; [reflexivity|].
           split; [intros _; rewrite (C eq_refl), <- (all_resp_length _ _ _ Rr); cbn [length]; lia|]. cbn [length]. split; [discriminate|lia].
        -- exists (hits + 1), (a :: r). split; [reflexivity|]. split; [cbn [filter]; rewrite He; cbn [all_resp]; rewrite Ra, Rr; reflexivity|]. split; [reflexivity|]. split; [reflexivity|]. split; [reflexivity|].
           split; [discriminate|]. cbn [length]. split; [discriminate|lia].
      * destruct (IH (hits + 1) r ltac:(lia) eq_refl) as (l1 & l2 & h' & rest & El & R2 & Ea & R1 & P & C & N).
        destruct (Z.eqb_spec (hits + 1) (last + 1)) as [Y|_]; [lia|]. cbn [andb]. rewrite P.
        exists (e :: l1), l2, h', rest. split; [rewrite El; reflexivity|]. split; [exact R2|].
        replace (Z.to_nat (last - hits)) with (S (Z.to_nat (last - (hits + 1)))) by lia. cbn [firstn app].
        split; [f_equal; exact Ea|]. split; [cbn [filter]; rewrite He; cbn [all_resp]; rewrite Ra, R1; reflexivity|].
        split; [|split; [intros Hc; rewrite (C Hc); cbn [length]; lia|cbn [length]; rewrite N; lia]].
        destruct (Z.leb_spec offset hits) as [Lo|Lo]; cbn [andb].
        -- destruct (Z.ltb_spec hits last); [|lia]. rewrite Ra. cbn [app fst snd].
           replace (Z.to_nat (offset - hits)) with 0%nat by lia. replace (Z.to_nat (offset - (hits + 1))) with 0%nat by lia. cbn [skipn].
           replace (Z.to_nat (last - Z.max hits offset)) with (S (Z.to_nat (last - Z.max (hits + 1) offset))) by lia. reflexivity.
        -- cbn [app fst snd]. replace (Z.to_nat (offset - hits)) with (S (Z.to_nat (offset - (hits + 1)))) by lia. cbn [skipn].
           replace (Z.max (hits + 1) offset) with (Z.max hits offset) by lia. reflexivity.
    + cbn [page_off]. rewrite He, andb_false_r. destruct (Z.eqb_spec hits (last + 1)) as [Y|_]; [lia|]. cbn [andb].
      destruct (IH hits all H R) as (l1 & l2 & h' & rest & El & R2 & Ea & R1 & P & C & N). rewrite P.
      exists (e :: l1), l2, h', rest. split; [rewrite El; reflexivity|]. split; [exact R2|]. split; [exact Ea|]. split; [cbn [filter]; rewrite He; exact R1|]. split; [reflexivity|]. split; [exact C|exact N].
Qed.

(** Entries from a key on. *)
Lemma from_key {V} (l1 : amap V) e l2 : msorted (l1 ++ e :: l2) -> filter (fun x => negb (key_ltb (fst x) (fst e))) (l1 ++ e :: l2) = e :: l2.
Proof.
  intros S. rewrite filter_app.
  assert (X : filter (fun x => negb (key_ltb (fst x) (fst e))) l1 = []).
  { induction l1 as [|a l1 IH]; [reflexivity|]. cbn [app] in S. inversion S as [|? ? S1 S2]; subst. cbn [filter]. rewrite Forall_forall in S2.
    assert (Y : key_ltb (fst a) (fst e) = true) by (apply (S2 e); apply in_or_app; right; left; reflexivity). rewrite Y. cbn [negb]. apply IH. exact S1. }
  rewrite X. cbn [app filter]. rewrite key_ltb_irrefl. cbn [negb]. f_equal.
  assert (S' : msorted (e :: l2)). { clear X. induction l1 as [|a l1 IH]; [exact S|]. inversion S; subst. apply IH. assumption. }
  inversion S' as [|? ? S1 S2]; subst. clear -S2. induction l2 as [|b l2 IH]; [reflexivity|]. inversion S2 as [|? ? B1 B2]; subst. cbn [filter].
  assert (Y : key_ltb (fst b) (fst e) = false). { destruct (key_ltb (fst b) (fst e)) eqn:E; [|reflexivity]. unfold kv_lt in B1. pose proof (key_ltb_trans _ _ _ B1 E) as Z1. rewrite key_ltb_irrefl in Z1. discriminate Z1. }
  rewrite Y. cbn [negb]. f_equal. apply IH. exact B2.
Qed.

Lemma walk_from {V A} (hit : key * V -> bool) (resp : key * V -> option A) m limit count : msorted m -> 0 <= limit -> forall n l1 e l2 all, (length l2 < n)%nat ->
  m = l1 ++ e :: l2 -> all_resp resp (filter hit (e :: l2)) = Some all ->
  exists pages, walk (paginate hit resp m) limit count (Some (fst e)) pages /\ concat pages = all /\ Forall (fun p => Z.of_nat (length p) <= page_size limit) pages.
Proof.
  intros S L. induction n as [|n IH]; intros l1 e l2 all Hn Em R; [lia|].
  assert (P0 : 0 < page_size limit) by (unfold page_size; destruct (Z.eqb_spec limit 0); lia).
  destruct (page_key_spec hit resp (page_size limit) (e :: l2) 0 all ltac:(lia) R) as (a1 & a2 & items & rest & El & R1 & R2 & P & B & Ne).
  specialize (Ne P0 ltac:(discriminate)).
  assert (Q : paginate hit resp m (mkPage (Some (fst e)) 0 limit count) = Some (items, mkRes (match a2 with [] => None | x :: _ => Some (fst x) end) 0)).
  { unfold paginate. cbn [pg_offset pg_key pg_limit pg_count is_some]. change (0 <? 0) with false. cbn [andb]. rewrite Em, (from_key l1 e l2) by (rewrite <- Em; exact S). fold (page_size limit). rewrite P. reflexivity. }
  assert (Ea : all = items ++ rest).
  { rewrite El, filter_app, all_resp_app, R1, R2 in R. injection R as <-. reflexivity. }
  destruct a2 as [|e2 a2].
  - exists [items]. cbn [filter all_resp] in R2. injection R2 as <-. split; [eapply walk_last; exact Q|]. split; [cbn; rewrite Ea; reflexivity|]. constructor; [lia|constructor].
  - destruct a1 as [|x a1]; [contradiction|]. cbn [app] in El. injection El as <- El.
    destruct (IH (l1 ++ e :: a1) e2 a2 rest) as (pages & W & C & F).
    + rewrite El, app_length in Hn. cbn [length] in Hn. lia.
    + rewrite Em, El, <- app_assoc. reflexivity.
    + exact R2.
    + exists (items :: pages). split; [eapply walk_more; [exact Q|exact W]|]. split; [cbn; rewrite C, Ea; reflexivity|]. constructor; [lia|exact F].
Qed.

Theorem paginate_lists {V A} (hit : key * V -> bool) (resp : key * V -> option A) m all : msorted m -> all_resp resp (filter hit m) = Some all -> lists (paginate hit resp m) all.
Proof.
  intros S R. split.
  - intros limit count L. assert (P0 : 0 < page_size limit) by (unfold page_size; destruct (Z.eqb_spec limit 0); lia).
    destruct (page_off_spec hit resp 0 (page_size limit) ((limit =? 0) || count) m ltac:(lia) 0 all ltac:(lia) R) as (l1 & l2 & h' & rest & El & R2 & Ea & R1 & P & C & N).
    replace (page_size limit - Z.max 0 0) with (page_size limit) in P by (change (Z.max 0 0) with 0; lia). rewrite Z.sub_0_r in *. change (Z.to_nat (0 - 0)) with 0%nat in P. change (Z.to_nat 0) with 0%nat in P. cbn [skipn] in P.
    assert (Q : exists t, paginate hit resp m (mkPage None 0 limit count) = Some (firstn (Z.to_nat (page_size limit)) all, mkRes (match l2 with [] => None | x :: _ => Some (fst x) end) t)).
    { eexists. unfold paginate. cbn [pg_offset pg_key pg_limit pg_count is_some]. change (0 <? 0) with false. cbn [andb]. fold (page_size limit). rewrite Z.add_0_l, P. cbn [fst snd]. reflexivity. }
    destruct Q as (t & Q). assert (B : Z.of_nat (length (firstn (Z.to_nat (page_size limit)) all)) <= page_size limit) by (rewrite firstn_length; lia).
    destruct l2 as [|e2 l2].
    + cbn [filter all_resp] in R2. injection R2 as <-. eexists [_]. split; [eapply walk_last; exact Q|]. split; [cbn; symmetry; exact Ea|]. constructor; [exact B|constructor].
    + destruct (walk_from hit resp m limit count S L (Datatypes.S (length l2)) l1 e2 l2 rest ltac:(lia) El R2) as (pages & W & Cc & F).
      exists (firstn (Z.to_nat (page_size limit)) all :: pages). split; [eapply walk_more; [exact Q|exact W]|]. split; [cbn; rewrite Cc; symmetry; exact Ea|]. constructor; [exact B|exact F].
  - intros offset limit count O L. assert (P0 : 0 < page_size limit) by (unfold page_size; destruct (Z.eqb_spec limit 0); lia).
    destruct (page_off_spec hit resp offset (offset + page_size limit) ((limit =? 0) || count) m ltac:(lia) 0 all ltac:(lia) R) as (l1 & l2 & h' & rest & El & R2 & Ea & R1 & P & C & N).
    rewrite Z.sub_0_r in P. replace (offset + page_size limit - Z.max 0 offset) with (page_size limit) in P by lia.
    eexists. split; [|split].
    + unfold paginate. cbn [pg_offset pg_key pg_limit pg_count is_some]. rewrite andb_false_r. fold (page_size limit). rewrite P. cbn [fst snd]. reflexivity.
    + cbn [rs_total]. intros Hc. assert (E : (limit =? 0) || count = true) by (destruct Hc as [->| ->]; [apply orb_true_r|reflexivity]). rewrite E in *. rewrite (C eq_refl). lia.
    + cbn [rs_next]. rewrite Z.add_0_l in N. rewrite <- N. destruct l2; split; congruence || discriminate.
Qed.
