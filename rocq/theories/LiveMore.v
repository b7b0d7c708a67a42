(** When the remaining reward and override instructions go through. *)
From Verif Require Import Base Types Layout Math External Processor Runtime History Spec SpecReward SpecLive
  WorldLemmas Effects Handlers Evolve Sane Wf Totals Arith Nets Caps Stakers Deposits Inv Life Rewards Collect Progress Solvency Live LiveTokens.

Lemma affordable_one e w ck k : affordable e w ck (fun j => j = k) ->
  pending e w ck k + e_rent e CONFIG_LEN <= lam (get w ck).
Proof. intros (ks & _ & I & L). pose proof (sum_over_in (pending e w ck) ks k (I k eq_refl)). lia. Qed.
Lemma load_config_goes e w k c : config_at e w k c -> load_config e w k = Ok c.
Proof. intros [O D]. unfold load_config. rewrite require_true by now apply N.eqb_eq. now rewrite D. Qed.
Lemma load_val_goes e w k ck v : val_at e w k v -> k = e_val e (vote (v_del v)) ck -> load_val e w k ck = Ok v.
Proof.
  intros [O D] K. unfold load_val. rewrite require_true by now apply N.eqb_eq. rewrite D. cbn [unpack_val].
  rewrite bind_Ok. rewrite require_true by now apply N.eqb_eq. reflexivity.
Qed.
Lemma val_stake e w k ck v : val_at e w k v -> k = e_val e (vote (v_del v)) ck -> stake_of e w ck k = Some (v_del v).
Proof. intros [O D] K. apply stake_of_intro; auto; rewrite D; [reflexivity|]. exact K. Qed.

Lemma harvest_val_goes e cx a w v : env_ok e -> inv e w -> settled_chain e w (hv_config a) ->
  good_harvest_val e cx a w v -> exists w', run e cx (CHarvestValidatorRewards a) w = Ok w'.
Proof.
  intros OK I [[h HH] TT] [[c C] [V K] [AU NA] VHR PAY WR].
  pose proof (ready_inv _ _ _ _ _ I C HH TT) as RY.
  destruct (harvest_goes e _ w c _ _ (hv_authority a) (hv_vhr a) None OK RY C (val_stake _ _ _ _ _ V K) AU NA
    ltac:(discriminate) VHR (affordable_one _ _ _ _ PAY)) as (w1 & R1 & _ & G1 & _).
  exists w1. unfold run, handler, harvest_validator_rewards. rewrite (load_config_goes _ _ _ _ C), bind_Ok.
  rewrite (load_val_goes _ _ _ _ _ V K), bind_Ok. rewrite require_true by now apply N.eqb_eq. cbv zeta.
  rewrite require_true by now apply N.eqb_eq. rewrite R1, bind_Ok.
  rewrite (runtime_check_touches _ _ _ _ (go_touch _ _ _ _ _ _ _ _ G1) (go_tot _ _ _ _ _ _ _ _ G1) WR). reflexivity.
Qed.

Lemma override_goes e cx a n w c v : env_ok e -> inv e w -> settled_chain e w (ov_config a) -> n < U64 ->
  good_override e cx a n w c v -> exists w', run e cx (CValidatorOverride a n) w = Ok w'.
Proof.
  intros OK I [[h HH] TT] NB [C (A1 & A2 & A3) [V K] [AU NA] VHR CAP PAY WR].
  pose proof (ready_inv _ _ _ _ _ I C HH TT) as RY. pose proof (val_stake _ _ _ _ _ V K) as S.
  destruct (harvest_goes e _ w c _ _ (ov_stake_auth a) (ov_vhr a) None OK RY C S AU NA
    ltac:(discriminate) VHR (affordable_one _ _ _ _ PAY)) as (w1 & R1 & _ & G1 & ac & ho & D1 & a' & l' & C1).
  rewrite (proj2 V) in D1. cbn [upd_del] in D1.
  set (d1 := set_lasts (v_del v) ho ac) in *. set (c1 := set_cfg_last (set_cfg_acc c a') l') in *.
  pose proof (go_ready _ _ _ _ _ _ _ _ G1) as RY1.
  assert (config_at e w1 (ov_config a) c1) as CA1 by (split; [rewrite (go_own _ _ _ _ _ _ _ _ G1); apply C|auto]).
  assert (stake_of e w1 (ov_config a) (ov_stake a) = Some d1) as S1.
  { apply stake_of_intro; [rewrite (go_own _ _ _ _ _ _ _ _ G1); apply V|rewrite D1; reflexivity|].
    rewrite D1. exact K. }
  destruct (ready_room _ _ _ _ _ _ RY1 CA1 S1) as [RM1 RM2].
  assert (ov_stake a <> ov_config a) as NV. { intros E. destruct V as [_ V], C as [_ C]. congruence. }
  pose proof (wf_dat _ (ov_stake a) (i_wf _ _ I)) as WV. rewrite (proj2 V) in WV. cbn in WV.
  set (w2 := setd w1 (ov_stake a) (DVal (set_v_min (set_v_del v d1) n))).
  assert (dat (get w2 (ov_config a)) = DConfig c1) as C2.
  { unfold w2. ws. destruct (N.eqb_spec (ov_stake a) (ov_config a)); [congruence|auto]. }
  assert (dat (get w2 (ov_stake a)) = DVal (set_v_min (set_v_del v d1) n)) as D2 by (unfold w2; ws; now rewrite N.eqb_refl).
  destruct (sync_runs w2 (ov_config a) (ov_stake a) (v_total v) n c1 d1) as [w' R2]; auto.
  { rewrite D2. reflexivity. } { lia. }
  exists w'. unfold run, handler, validator_override. rewrite (load_config_goes _ _ _ _ C), bind_Ok.
  rewrite require_true by (destruct (N.eqb_spec (cfg_authority c) 0); [congruence|reflexivity]).
  rewrite require_true by now apply N.eqb_eq. rewrite require_true by auto.
  rewrite (load_val_goes _ _ _ _ _ V K), bind_Ok. cbv zeta. rewrite R1, bind_Ok, D1. cbn [unpack_val]. rewrite bind_Ok.
  cbn [v_total set_v_del]. fold w2. rewrite R2, bind_Ok.
  apply sync_effective_ok in R2. rewrite (runtime_check_touches cx [ov_config a; ov_stake a; ov_stake_auth a] w w'); auto.
  - eapply touches_trans; [eapply touches_incl; [exact (go_touch _ _ _ _ _ _ _ _ G1)|apply incl_refl]|].
    apply touches_trans with w2; [refine (touches_incl _ _ _ _ (touches_setd _ _ _) _); intros x; simpl; tauto|].
    refine (touches_incl _ _ _ _ (touches_resync _ _ _ _ _ R2) _). intros x; simpl; tauto.
  - rewrite (proj1 (frozen_resync _ _ _ _ _ R2)). unfold w2. rewrite total_setd. apply (go_tot _ _ _ _ _ _ _ _ G1).
Qed.

Lemma pool_reward_is acc last dep : since acc last * dep < U128 -> since acc last * dep / 10 ^ 18 < U64 ->
  pool_reward acc last dep = Ok (since acc last * dep / 10 ^ 18).
Proof.
  intros A B. unfold pool_reward. cbv zeta. rewrite since_wsub. destruct (N.eqb_spec (since acc last) 0) as [->|].
  - reflexivity.
  - rewrite (proj2 (N.ltb_lt _ _) A). change 1000000000000000000 with (10 ^ 18). now rewrite (proj2 (N.ltb_lt _ _) B).
Qed.

Lemma harvest_holder_goes e cx a w c : env_ok e -> inv e w -> settled_chain e w (hh_config a) ->
  good_harvest_holder e cx a w c -> exists w', run e cx (CHarvestHolderRewards a) w = Ok w'.
Proof.
  intros OK I [[h HH] TT] [C (VE & PDA & t & TD & TM) (VHR & VHO) (PE & PO) (p & Po & Pd & Pw & Pm) (RW1 & RW2) RENT OWNER WR].
  remember (hh_config a) as ck eqn:CK. remember (hh_vault_pda a) as pk eqn:PKE.
  destruct (sane_cfg _ _ (i_sane _ _ I) _ _ C) as (NPC & _ & BU & VPO & VPD). rewrite <- PDA in VPO, VPD.
  destruct (prog_ids _ OK) as (_ & _ & _ & _ & _ & _ & _ & NR0).
  assert (pk <> ck) as NE by (intros ->; destruct C as [_ C]; congruence).
  assert (hh_vhr a <> ck) as NH by (intros E; rewrite <- VHR in HH; rewrite E in HH; destruct C as [_ C]; congruence).
  assert (hh_vhr a <> pk) as NH2 by (intros E; rewrite <- VHR, E in HH; congruence).
  assert (e_token e <> e_prog e /\ e_rewards e <> e_prog e) as [_ NRP].
  { destruct (prog_ids _ OK) as (_ & A & B & _). auto. }
  assert (hh_pool a <> ck) as NPK by (intros E; rewrite E in PO; destruct C as [C _]; congruence).
  assert (hh_pool a <> pk) as NPP by (intros E; rewrite E in PO; destruct VPO; congruence).
  pose proof (i_lamp _ _ I _ _ C) as LL.
  pose proof (wf_lam _ ck (i_wf _ _ I)) as LB.
  pose proof (rpt_exact (lam (get w ck) - cfg_last c) (cfg_effective c) ltac:(lia)) as RP.
  set (rpt := if cfg_effective c =? 0 then 0 else _) in RP.
  set (c1 := set_cfg_last (set_cfg_acc c (wadd128 (cfg_acc c) rpt)) (lam (get w ck))).
  set (w1 := setd w ck (DConfig c1)).
  assert (sync_config_lamports w ck = Ok w1) as R1.
  { unfold sync_config_lamports. rewrite (proj2 C). cbn [unpack_config]. rewrite bind_Ok, csub_le, bind_Ok by lia.
    rewrite RP, bind_Ok. reflexivity. }
  set (acc := c_pool_acc cx mod 2 ^ 128) in *.
  unfold pool_owes, holder_acc, deposit in *. rewrite HH in *.
  set (r := since acc (h_last h) * h_deposited h / 10 ^ 18) in *.
  pose proof (wf_lam _ (hh_pool a) (i_wf _ _ I)) as PLB.
  assert (pool_reward acc (h_last h) (h_deposited h) = Ok r) as PR by (apply pool_reward_is; [exact RW1|lia]).
  set (w2 := setd w1 (hh_vhr a) (DHolder (Hold acc (h_deposited h)))).
  assert (forall k, lam (get w2 k) = lam (get w k)) as L2 by (intros k; unfold w2, w1; now ws).
  destruct (pool_pay_runs w2 (hh_pool a) pk r) as [w3 R3]; [rewrite L2; lia|rewrite (total_same w w2); auto|].
  assert (rewards_harvest e (with_pda cx pk) w1 (hh_pool a) (hh_ptok a) (hh_vhr a) (hh_mint a) pk acc = Ok w3) as R2.
  { unfold rewards_harvest, rewards_checked.
    assert (own (get w1 (hh_pool a)) = e_rewards e) as O1 by (unfold w1; ws; auto).
    rewrite require_true by (rewrite PE at 1; rewrite O1; now rewrite !N.eqb_refl).
    rewrite (token_at_runs e w1 (hh_ptok a) p), bind_Ok.
    2:{ unfold w1. ws. auto. }
    2:{ unfold w1. ws. destruct (N.eqb_spec ck (hh_ptok a)) as [E|]; auto. destruct C as [_ C]. congruence. }
    rewrite require_true by now rewrite Pw, Pm, !N.eqb_refl.
    rewrite require_true by (unfold with_pda; now rewrite N.eqb_refl, orb_true_r).
    assert (own (get w1 (hh_vhr a)) = e_rewards e) as O2 by (unfold w1; ws; auto).
    rewrite require_true by (rewrite VHR at 1; rewrite O2, PDA; now rewrite !N.eqb_refl).
    assert (dat (get w1 (hh_vhr a)) = DHolder h) as D1.
    { unfold w1. ws. destruct (N.eqb_spec ck (hh_vhr a)); [congruence|]. now rewrite VHR. }
    rewrite D1, bind_Ok, PR, bind_Ok.
    rewrite require_true by (apply N.leb_le; unfold pool_available, w1; ws; lia). exact R3. }
  apply pool_pay_ok in R3 as (Q0 & Q1 & Q2 & Q3 & Q4).
  assert (forall k, lam (get w3 k) = pay_lam w (hh_pool a) pk r k) as L3 by (intros k; rewrite Q3; unfold pay_lam; now rewrite !L2).
  assert (total_lamports w3 = total_lamports w) as T3 by (eapply total_pay; [|exact L3]; lia).
  assert (dat (get w3 pk) = DRaw []) as D3.
  { rewrite Q2. unfold w2, w1. ws. destruct (N.eqb_spec (hh_vhr a) pk); [congruence|]. destruct (N.eqb_spec ck pk); [congruence|auto]. }
  assert (own (get w3 pk) = own (get w pk)) as O3 by (rewrite Q1; unfold w2, w1; ws; auto).
  assert (dat (get w3 ck) = DConfig c1) as C3.
  { rewrite Q2. unfold w2, w1. ws. destruct (N.eqb_spec (hh_vhr a) ck); [congruence|]. now rewrite N.eqb_refl. }
  assert (lam (get w3 pk) = lam (get w pk) + r) as LP3.
  { rewrite L3. unfold pay_lam. destruct (N.eqb_spec r 0) as [E|]; [rewrite E; lia|]. rewrite N.eqb_refl.
    destruct (N.eqb_spec (hh_pool a) pk); [congruence|]. reflexivity. }
  set (m := e_rent e 0) in *.
  set (w4 := setl (setl w3 pk m) ck (lam (get (setl w3 pk m) ck) + (lam (get w3 pk) - m))).
  assert (transfer_excess e w3 pk ck = Ok w4) as R4.
  { unfold transfer_excess. cbv zeta. rewrite D3. change (data_len (DRaw [])) with 0. fold m.
    rewrite require_true by (apply N.leb_le; lia).
    rewrite require_true by (rewrite O3, orb_true_iff, !N.eqb_eq; destruct OWNER; [right; auto|left; clear - H LP3; lia]).
    pose proof (total_ge2 w3 pk ck NE) as TG. unfold assert.
    assert ((lam (get (setl w3 pk m) ck) + (lam (get w3 pk) - m) <? U64) = true) as B.
    { apply N.ltb_lt. ws. destruct (N.eqb_spec pk ck); [congruence|]. lia. }
    rewrite B. reflexivity. }
  set (w5 := setd w4 ck (DConfig (set_cfg_last c1 (lam (get w4 ck))))).
  exists w5. unfold run, handler, harvest_holder_rewards. rewrite <- CK, <- PKE.
  rewrite (load_config_goes _ _ _ _ C), bind_Ok. rewrite require_true by now apply N.eqb_eq.
  rewrite TD. cbn [unpack_token]. rewrite bind_Ok. rewrite require_true by now apply N.eqb_eq.
  rewrite BU, (ok_bump _ OK ck), bind_Ok. rewrite <- PDA. rewrite require_true by apply N.eqb_refl.
  rewrite require_true by now apply N.eqb_eq. rewrite require_true by (apply N.eqb_eq; rewrite VHR, PDA; reflexivity).
  rewrite R1, bind_Ok. change (c_pool_acc cx mod U128) with acc. rewrite R2, bind_Ok, R4, bind_Ok.
  assert (dat (get w4 ck) = DConfig c1) as C4 by (unfold w4; ws; auto).
  rewrite C4. cbn [unpack_config]. rewrite bind_Ok. fold w5. rewrite bind_Ok.
  rewrite (runtime_check_touches cx [ck; hh_pool a; hh_vhr a; pk] w w5); auto.
  - intros k N. simpl in N. apply account_ext.
    + unfold w5, w4. ws. destruct (N.eqb_spec ck k); [tauto|]. destruct (N.eqb_spec pk k); [tauto|].
      rewrite L3. unfold pay_lam. destruct (r =? 0); auto. destruct (N.eqb_spec pk k); [tauto|].
      destruct (N.eqb_spec (hh_pool a) k); [tauto|auto].
    + unfold w5, w4. ws. rewrite Q1. unfold w2, w1. now ws.
    + unfold w5, w4. ws. destruct (N.eqb_spec ck k); [tauto|]. rewrite Q2. unfold w2, w1. ws.
      destruct (N.eqb_spec (hh_vhr a) k); [tauto|]. destruct (N.eqb_spec ck k); [tauto|auto].
  - unfold w5. rewrite total_setd.
    pose proof (total_setl w3 pk m) as T4.
    pose proof (total_setl (setl w3 pk m) ck (lam (get (setl w3 pk m) ck) + (lam (get w3 pk) - m))) as T5. fold w4 in T5. lia.
Qed.
