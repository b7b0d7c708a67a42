(** How much can be unstaked within one cooldown period. *)
From Verif Require Import Base Types Layout Instr Math External Processor Runtime History Spec SpecWindow
  WorldLemmas Effects Handlers Evolve Sane Wf Arith Totals Nets Caps Stakers Deposits Inv.

(** Sums when two stake accounts change. *)
Lemma sum_of_at2 e w w' ck g k1 k2 d1 d2 d1' d2' : k1 <> k2 ->
  stake_of e w ck k1 = Some d1 -> stake_of e w ck k2 = Some d2 ->
  stake_of e w' ck k1 = Some d1' -> stake_of e w' ck k2 = Some d2' ->
  (forall k, k <> k1 -> k <> k2 -> stake_of e w' ck k = stake_of e w ck k) ->
  sum_of e w' ck g + g d1 + g d2 = sum_of e w ck g + g d1' + g d2'.
Proof.
  intros NE A1 A2 B1 B2 OT. set (wi := put w k1 (get w' k1)).
  assert (forall k, stake_of e wi ck k = if k1 =? k then stake_of e w' ck k else stake_of e w ck k) as WI.
  { intros k. unfold stake_of, wi. rewrite get_put. destruct (N.eqb_spec k1 k) as [<-|]; auto. }
  assert (sum_of e wi ck g + g d1 = sum_of e w ck g + g d1') as V1.
  { apply sum_of_at with k1; auto; [rewrite WI, N.eqb_refl; auto|]. intros k N1. rewrite WI.
    destruct (N.eqb_spec k1 k); congruence. }
  assert (sum_of e w' ck g + g d2 = sum_of e wi ck g + g d2') as V2.
  { apply sum_of_at with k2; auto; [rewrite WI; destruct (N.eqb_spec k1 k2); congruence|]. intros k N1. rewrite WI.
    destruct (N.eqb_spec k1 k) as [<-|]; auto. }
  lia.
Qed.
Lemma moved_pair e cx a n w w' : moved_ok e cx a n w w' -> exists d1 d2 d1' d2',
  mv_source a <> mv_dest a /\
  stake_of e w (mv_config a) (mv_source a) = Some d1 /\ stake_of e w (mv_config a) (mv_dest a) = Some d2 /\
  stake_of e w' (mv_config a) (mv_source a) = Some d1' /\ stake_of e w' (mv_config a) (mv_dest a) = Some d2' /\
  n <= staked d1 /\ staked d1' = staked d1 - n /\ staked d2' = staked d2 + n /\
  cooldown d1' = cooldown d1 /\ cooldown d2' = N.max (cooldown d1) (cooldown d2) /\
  forall ck k, k <> mv_source a -> k <> mv_dest a -> stake_of e w' ck k = stake_of e w ck k.
Proof.
  intros H. pose proof (moved_net_ok _ _ _ _ _ _ H) as M. pose proof H as [].
  assert (exists t1, dat (get w (mv_dest a)) = DSol t1 /\ s_native t1 = s_native t0) as (t1 & Et1 & Nt).
  { pose proof (ev_id _ _ _ (evolves_harvest _ _ _ _ _ _ _ _ _ H1) _ Hto) as I. rewrite Ht0 in I.
    apply same_id_sol in I as (t1 & A & B & _). eauto. }
  pose proof M as M2. destruct M2. assert (s1 = s0) as -> by congruence. assert (t2 = t1) as -> by congruence.
  exists (s_del s0), (s_del t1), ds, dt. repeat split; try (apply stake_of_intro).
  - congruence.
  - auto.
  - rewrite Hs0; reflexivity.
  - rewrite Hs0; simpl; auto.
  - auto.
  - rewrite Et1; reflexivity.
  - rewrite Et1; simpl; congruence.
  - rewrite Hown; auto.
  - rewrite Hs'; reflexivity.
  - rewrite Hs'; simpl; auto.
  - rewrite Hown; auto.
  - rewrite Ht'; reflexivity.
  - rewrite Ht'; simpl; congruence.
  - auto.
  - now rewrite Hds.
  - now rewrite Hdt.
  - now rewrite Hds.
  - now rewrite Hdt.
  - intros ck k N1 N2. eapply moved_stake; eauto.
Qed.

(** Stakes that can still be unstaked from before time [t]. *)
Definition open_before (t : N) (d : delegation) : N := if cooldown d <? t then staked d else 0.
Lemma sum_open_sframe e w w' ck t : evolves e w w' -> sframe e w w' ->
  sum_of e w' ck (open_before t) = sum_of e w ck (open_before t).
Proof.
  intros EV [_ S]. apply sum_of_ext. intros k.
  pose proof (stake_of_evolves_stk e w w' ck k EV (S k)) as E.
  destruct (stake_of e w ck k), (stake_of e w' ck k); simpl in *; try discriminate; auto.
  injection E as A B. unfold open_before. now rewrite A, B.
Qed.
(** The same for one instruction; [b] bounds the cap and [t] the next cooldown. *)
Lemma open_did e cx w w' c ck t b : env_ok e -> sane e w -> did e cx w w' c ->
  (forall a n cf, c = CUnstakeTokens a n -> un_config a = ck -> config_at e w ck cf ->
     c_now cx < t /\ t <= N.min (c_now cx + cfg_cooldown cf) (U64 - 1) /\ cfg_bps cf <= b) ->
  10000 * stake_removed c ck + b * sum_of e w' ck (open_before t) <=
  b * (sum_of e w ck (open_before t) + stake_added w c ck).
Proof.
  intros OK S D WIN.
  assert (forall x y z, x <= y + z -> 10000 * 0 + b * x <= b * (y + z)) as MONO.
  { intros x y z L. apply (N.mul_le_mono_l _ _ b) in L. lia. }
  assert (forall ck0, creates c = false -> call_config c = ck0 -> ck <> ck0 ->
          sum_of e w' ck (open_before t) = sum_of e w ck (open_before t)) as OTHER.
  { intros ck0 CR <- NE. apply sum_of_eq. intros k.
    pose proof (did_psteps _ _ _ _ _ OK S D CR) as P. clear D S CR WIN. revert ck NE k.
    induction P; intros ck NE k; auto. rewrite IHP by auto. eapply pstep_stake_of_other; eauto. }
  destruct (quiet c) eqn:Q.
  { assert (creates c = false) as CR by (destruct c; auto; discriminate).
    rewrite (sum_open_sframe _ _ _ _ _ (did_evolves _ _ _ _ _ OK D CR) (sframe_quiet _ _ _ _ _ OK D Q)).
    destruct c; simpl in *; try discriminate; apply MONO; lia. }
  assert (forall a n, staked_any e cx a n w w' -> ck = st_config a ->
    sum_of e w' ck (open_before t) <= sum_of e w ck (open_before t) + n) as STK.
  { intros a n H ->. pose proof (staked_net _ _ _ _ _ _ OK H) as CH. destruct H.
    destruct (chained_stake _ _ _ _ _ _ _ _ CH) as (? & d & ? & ? & ? & ? & _ & S1 & S2 & S3); auto.
    pose proof (sum_of_at _ _ _ _ (open_before t) _ _ _ S1 S2) as U. specialize (U (S3 _)).
    unfold open_before in U at 2 4. cbn in U. destruct (cooldown d <? t); lia. }
  assert (forall a n, slashed_any e cx a n w w' -> ck = sl_config a ->
    sum_of e w' ck (open_before t) <= sum_of e w ck (open_before t)) as SLA.
  { intros a n H ->. pose proof (slashed_net _ _ _ _ _ _ OK H) as CH. destruct H.
    destruct (chained_stake _ _ _ _ _ _ _ _ CH) as (? & d & ? & ? & ? & ? & _ & S1 & S2 & S3); auto.
    pose proof (sum_of_at _ _ _ _ (open_before t) _ _ _ S1 S2) as U. specialize (U (S3 _)).
    unfold open_before in U at 2 4. cbn in U. destruct (cooldown d <? t); lia. }
  destruct D; simpl in Q; try discriminate.
  - apply MONO. simpl. rewrite (sum_of_eq e w w'); [lia|]. intros k. eapply stake_of_created_config; eauto.
  - apply MONO. simpl. destruct (stake_of_created_val _ _ _ _ _ OK H) as [(d0 & S1 & Z1 & _ & O1) S2].
    rewrite (sum_of_created e w w' (iv_stake a) (open_before t) d0 (iv_config a)); auto; [lia|].
    unfold open_before. rewrite Z1. now destruct (_ <? _).
  - simpl. apply MONO. destruct (N.eqb_spec ck (st_config a)) as [E|NE]; [eauto|].
    rewrite (OTHER (st_config a)) by auto. lia.
  - simpl. apply MONO. destruct (N.eq_dec ck (sl_config a)) as [E|NE].
    + specialize (SLA _ _ H E). lia.
    + rewrite (OTHER (sl_config a)) by auto. lia.
  - apply MONO. simpl. destruct (stake_of_created_sol _ _ _ _ _ OK H) as [(d0 & S1 & Z1 & _ & O1) S2].
    rewrite (sum_of_created e w w' (is_stake a) (open_before t) d0 (is_config a)); auto; [lia|].
    unfold open_before. rewrite Z1. now destruct (_ <? _).
  - simpl. apply MONO. destruct (N.eqb_spec ck (st_config a)) as [E|NE]; [eauto|].
    rewrite (OTHER (st_config a)) by auto. lia.
  - cbn [stake_removed stake_added]. destruct (N.eqb_spec ck (un_config a)) as [->|NE].
    2: { apply MONO. rewrite (OTHER (un_config a)) by auto. lia. }
    destruct (unstaked_net _ _ _ _ _ _ OK H) as (c0 & Dc0 & CH). destruct H.
    destruct (WIN a n c0 eq_refl eq_refl (conj Hco Dc0)) as (W1 & W2 & W3).
    destruct (chained_stake _ _ _ _ _ _ _ _ CH) as (? & d1 & ? & ? & ? & ? & RD & S1 & S2 & S3); auto.
    pose proof (sum_of_at _ _ _ _ (open_before t) _ _ _ S1 S2) as U. specialize (U (S3 _)).
    destruct (sframe_harvest _ _ _ _ _ _ _ _ _ H1) as [_ SF]. specialize (SF _ Hso).
    rewrite (stk_del _ _ Hd), (stk_del _ _ (rd_d _ _ _ _ _ _ _ _ _ _ _ RD)) in SF. injection SF as SF1 SF2.
    assert (cfg_bps c = cfg_bps c0) as CC.
    { destruct H1. rewrite Hdat, N.eqb_refl in Hc. rewrite Dc0 in Hc1. injection Hc1 as <-. injection Hc as <-. reflexivity. }
    apply maxdeact_ok in Hmax.
    unfold open_before in U at 2 4. cbn [cooldown staked set_effective unstake_by set_cooldown] in U.
    destruct (N.ltb_spec (cooldown d1) t); [|lia].
    unfold sat_add64 in U. match type of U with context [?x <? t] => destruct (N.ltb_spec x t) end; [cbn in *; lia|].
    assert (10000 * n <= b * staked d1) as L.
    { rewrite Hmax in *. rewrite CC, SF1 in *. pose proof (N.mul_div_le (staked d1 * cfg_bps c0) 10000).
      assert (staked d1 * cfg_bps c0 <= staked d1 * b) by (apply N.mul_le_mono_l; auto). lia. }
    assert (sum_of e w' (un_config a) (open_before t) + staked d1 = sum_of e w (un_config a) (open_before t)) as <- by lia. lia.
  - simpl. apply MONO. destruct (N.eq_dec ck (sl_config a)) as [E|NE].
    + specialize (SLA _ _ H E). lia.
    + rewrite (OTHER (sl_config a)) by auto. lia.
  - simpl. apply MONO. destruct (N.eq_dec ck (mv_config a)) as [->|NE].
    2: { rewrite (OTHER (mv_config a)) by auto. lia. }
    destruct (moved_pair _ _ _ _ _ _ H) as (d1 & d2 & d1' & d2' & N0 & A1 & A2 & B1 & B2 & L & E1 & E2 & E3 & E4 & OT).
    pose proof (sum_of_at2 _ _ _ _ (open_before t) _ _ _ _ _ _ N0 A1 A2 B1 B2 (OT _)) as U.
    pose proof (sum_of_ge2 _ _ _ (open_before t) _ _ _ _ N0 A1 A2) as G.
    unfold open_before in U at 2 3 5 6, G at 1 2. rewrite E1, E2, E3, E4 in U.
    destruct (N.ltb_spec (cooldown d1) t), (N.ltb_spec (cooldown d2) t),
      (N.ltb_spec (N.max (cooldown d1) (cooldown d2)) t); lia.
Qed.

Lemma window_reachable e ck t0 D b w w' U S : reachable e w -> window e ck t0 D b w w' U S -> reachable e w'.
Proof. intros R W. induction W; auto. eapply reachable_step; [apply IHW; auto|eauto]. Qed.
Lemma open_window e ck t0 D b w w' U S : env_ok e -> reachable e w -> t0 + D < U64 ->
  window e ck t0 D b w w' U S ->
  10000 * U + b * sum_of e w' ck (open_before (t0 + D)) <= b * (sum_of e w ck (open_before (t0 + D)) + S).
Proof.
  intros OK R T W. induction W as [|w w1 U S ev w2 W IH ST IN]; [lia|]. specialize (IH R).
  pose proof (window_reachable _ _ _ _ _ _ _ _ _ R W) as R1. pose proof (inv_reachable _ _ OK R1) as I1.
  assert (10000 * unstaked_in ck w1 ev + b * sum_of e w2 ck (open_before (t0 + D)) <=
          b * (sum_of e w1 ck (open_before (t0 + D)) + staked_in ck w1 ev)); [|lia].
  destruct ST as [w1 cx c w2 WC WL RUN|w1 w2 RL].
  - apply run_ok in RUN as (_ & DD & _).
    pose proof (open_did e cx w1 w2 c ck (t0 + D) b OK (i_sane _ _ I1) DD) as O.
    assert (unstaked_in ck w1 (Do cx c) = stake_removed c ck) as ->.
    { destruct c; simpl; auto. now rewrite N.eqb_sym. }
    assert (staked_in ck w1 (Do cx c) = stake_added w1 c ck) as ->.
    { destruct c; simpl; auto; now rewrite N.eqb_sym. }
    apply O. intros a n cf -> E C. destruct (IN cx a n cf eq_refl E C) as (A & B & B'). lia.
  - simpl. rewrite (sum_of_eq e w1 w2) by (intros; eapply rely_stake_of; eauto). lia.
Qed.
Lemma sum_of_le e w ck g g' : (forall d, g d <= g' d) -> sum_of e w ck g <= sum_of e w ck g'.
Proof.
  intros L. unfold sum_of, wsum. induction w as [|k a w NK IH] using map_ind.
  - rewrite !map_fold_empty. lia.
  - rewrite !map_fold_insert_L; auto; try (intros; lia). destruct (stake_in e ck k a); [specialize (L d)|]; lia.
Qed.
