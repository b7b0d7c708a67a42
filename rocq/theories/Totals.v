(** Invariant, part 3: the effective total, the caps and the validators' totals. *)
From Verif Require Import Base Types Layout Instr Math External Processor Runtime History Spec
  WorldLemmas Effects Handlers Evolve Sane.

(** The config an instruction names. *)
Definition call_config (c : call) : pubkey :=
  match c with
  | CInitializeConfig a _ _ _ _ _ _ => ic_config a
  | CInitializeValidatorStake a => iv_config a
  | CValidatorStakeTokens a _ | CSolStakerStakeTokens a _ => st_config a
  | CHarvestHolderRewards a => hh_config a
  | CHarvestValidatorRewards a => hv_config a
  | CSlashValidatorStake a _ | CSlashSolStakerStake a _ => sl_config a
  | CSetAuthority a _ => sa_account a
  | CUpdateConfig a _ => uc_config a
  | CInitializeSolStakerStake a => is_config a
  | CHarvestSolStakerRewards a => hs_config a
  | CUnstakeTokens a _ => un_config a
  | CSolStakerMoveTokens a _ => mv_config a
  | CValidatorOverride a _ => ov_config a
  | CValidatorSyncAuthority a => sy_config a
  end.

(** One internal step on config [ck]: the config and at most one of its stake
    accounts change, keeping the effective total in line; or a called program
    changed foreign accounts. *)
Inductive pstep (e : env) (ck : pubkey) (w w' : world) : Prop :=
| PStake sk c c' d d'
    (Ho : forall k, own (get w' k) = own (get w k))
    (Hco : own (get w ck) = e_prog e)
    (Hc : dat (get w ck) = DConfig c) (Hc' : dat (get w' ck) = DConfig c')
    (Hs : stake_of e w ck sk = Some d) (Hs' : stake_of e w' ck sk = Some d')
    (He : cfg_effective c' + effective d = cfg_effective c + effective d')
    (Hoth : forall k, k <> ck -> k <> sk -> own (get w k) = e_prog e -> dat (get w' k) = dat (get w k))
| PConfig c c'
    (Ho : forall k, own (get w' k) = own (get w k))
    (Hco : own (get w ck) = e_prog e)
    (Hc : dat (get w ck) = DConfig c) (Hc' : dat (get w' ck) = DConfig c')
    (He : cfg_effective c' = cfg_effective c)
    (Hoth : forall k, k <> ck -> own (get w k) = e_prog e -> dat (get w' k) = dat (get w k))
| PFrame (Hf : pframe e w w').

Inductive psteps (e : env) (ck : pubkey) : world -> world -> Prop :=
| psteps_refl w : psteps e ck w w
| psteps_cons w w1 w2 : pstep e ck w w1 -> psteps e ck w1 w2 -> psteps e ck w w2.
Lemma psteps_one e ck w w' : pstep e ck w w' -> psteps e ck w w'.
Proof. intros H. eapply psteps_cons; [eassumption|apply psteps_refl]. Qed.
Lemma psteps_trans e ck w1 w2 w3 : psteps e ck w1 w2 -> psteps e ck w2 w3 -> psteps e ck w1 w3.
Proof. intros H. induction H; auto. intros K. eapply psteps_cons; eauto. Qed.

(** Stake accounts survive. *)
Lemma same_id_belongs e ck k d d' : same_id d d' -> belongs e ck k d -> belongs e ck k d'.
Proof.
  destruct d; simpl; try contradiction; destruct d'; simpl; try discriminate.
  - intros -> ?; auto.
  - intros [-> _] ?; auto.
Qed.
Lemma belongs_del e ck k d : belongs e ck k d -> exists x, del_of d = Ok x.
Proof. destruct d; simpl; try contradiction; eauto. Qed.
Lemma evolves_stake e w w' ck k d : evolves e w w' -> stake_of e w ck k = Some d ->
  exists d', stake_of e w' ck k = Some d'.
Proof.
  intros EV S. apply stake_of_some in S as (O & D & B).
  pose proof (same_id_belongs _ _ _ _ _ (ev_id _ _ _ EV k O) B) as B'.
  destruct (belongs_del _ _ _ _ B') as [x X]. exists x. apply stake_of_intro; auto.
  rewrite (ev_own _ _ _ EV); auto.
Qed.
Lemma evolves_stake_at e w w' ck k : evolves e w w' -> own (get w k) = e_prog e ->
  belongs e ck k (dat (get w k)) -> exists d', stake_of e w' ck k = Some d'.
Proof.
  intros EV O B. destruct (belongs_del _ _ _ _ B) as [x X]. eapply evolves_stake; [eassumption|].
  apply stake_of_intro; eauto.
Qed.
Lemma stake_not_config e w ck k c d : stake_of e w ck k = Some d -> dat (get w k) = DConfig c -> False.
Proof. intros S D. rewrite (stake_of_config _ _ _ _ _ D) in S. discriminate. Qed.

Lemma pstep_harvest e w ck vhr auth va sk keeper w' d : own (get w ck) = e_prog e ->
  stake_of e w ck sk = Some d -> harvested e w ck vhr auth va sk keeper w' -> pstep e ck w w'.
Proof.
  intros O S H. pose proof (harvested_sk _ _ _ _ _ _ _ _ _ H) as NS.
  destruct (delta_harvest _ _ _ _ _ _ _ _ _ H) as (c0 & d0 & h0 & a0 & C0 & D0 & D0' & DE).
  destruct H. apply (PStake e ck w w' sk c
     (set_cfg_last (set_cfg_acc c (wadd128 (cfg_acc c) rpt)) (lam (get w ck) - (sr + hr))) d (set_lasts d0 h0 a0)); auto.
  - now rewrite Hdat, N.eqb_refl.
  - eapply delta_stake; eauto.
  - apply stake_of_some in S as (_ & S & _). assert (d0 = d) as -> by congruence. simpl. lia.
  - intros k N1 N2 _. rewrite Hdat. destruct (N.eqb_spec ck k); [congruence|].
    destruct (N.eqb_spec sk k); congruence.
Qed.
Lemma pstep_resync e w ck sk lim w' d : own (get w ck) = e_prog e ->
  stake_of e w ck sk = Some d -> resynced w ck sk lim w' -> pstep e ck w w'.
Proof.
  intros O S H.
  destruct (delta_resync e _ _ _ _ _ H) as (c0 & d0 & lim0 & C0 & D0 & LM & LE & C0' & D0' & DE).
  apply stake_of_some in S as S'. destruct S' as (_ & S' & _). assert (d0 = d) as -> by congruence.
  destruct H. apply (PStake e ck w w' sk c0
     (set_cfg_effective c0 (cfg_effective c0 - effective d + N.min (staked d) lim0)) d
     (set_effective d (N.min (staked d) lim0))); auto.
  - eapply delta_stake; eauto.
  - simpl. lia.
  - intros k N1 N2 _. rewrite Hdat. destruct (N.eqb_spec ck k); [congruence|].
    destruct (N.eqb_spec sk k); congruence.
Qed.
Lemma pstep_setd e w ck sk c D' d d' : own (get w ck) = e_prog e -> dat (get w ck) = DConfig c ->
  stake_of e w ck sk = Some d -> belongs e ck sk D' -> del_of D' = Ok d' -> effective d' = effective d ->
  pstep e ck w (setd w sk D').
Proof.
  intros O C S B D E.
  assert (sk <> ck) as NE by (intros ->; eapply stake_not_config; eauto).
  apply (PStake e ck w _ sk c c d d'); auto.
  - intros k. now ws.
  - ws. destruct (N.eqb_spec sk ck); congruence.
  - apply stake_of_some in S as (SO & _). apply stake_of_intro; ws; rewrite ?N.eqb_refl; auto.
  - lia.
  - intros k N1 N2 _. ws. destruct (N.eqb_spec sk k); congruence.
Qed.
Lemma pstep_put_del e w ck sk c d d' : own (get w ck) = e_prog e -> dat (get w ck) = DConfig c ->
  stake_of e w ck sk = Some d -> vote d' = vote d -> effective d' = effective d ->
  pstep e ck w (put_del w sk d').
Proof.
  intros O C S V E. pose proof S as S'. apply stake_of_some in S' as (SO & D & B).
  eapply pstep_setd; eauto.
  - destruct (dat (get w sk)); simpl in *; try contradiction; auto. injection D as <-. rewrite V. auto.
  - eapply del_of_upd'; eauto.
Qed.
Lemma psteps_evolves_config e w w' ck c : evolves e w w' -> own (get w ck) = e_prog e ->
  dat (get w ck) = DConfig c -> own (get w' ck) = e_prog e /\ exists c', dat (get w' ck) = DConfig c'.
Proof.
  intros EV O D. destruct (evolves_config _ _ _ ck c EV (conj O D)) as (c' & [O' D'] & _). eauto.
Qed.

Lemma psteps_staked e cx a n w w' : env_ok e -> staked_any e cx a n w w' -> psteps e (st_config a) w w'.
Proof.
  intros OK [c0 Hco Hc0 Hso Hbel []].
  pose proof (evolves_harvest _ _ _ _ _ _ _ _ _ H1) as E1.
  destruct (evolves_stake_at _ _ _ _ _ (evolves_refl e w) Hso Hbel) as [d0 S0].
  destruct (evolves_stake _ _ _ _ _ _ E1 S0) as [d1 S1].
  assert (d1 = d) as -> by (apply stake_of_some in S1 as (_ & S1 & _); congruence).
  destruct (psteps_evolves_config _ _ _ _ _ E1 Hco Hc0) as [O1 _].
  assert (pstep e (st_config a) w1 w2) as P2 by (rewrite H2; eapply pstep_put_del; eauto).
  assert (evolves e w1 w2) as E2 by (rewrite H2; eapply evolves_put_del; eauto).
  destruct (evolves_stake _ _ _ _ _ _ E2 S1) as [d2 S2].
  destruct (psteps_evolves_config _ _ _ _ _ E2 O1 Hc) as [O2 _].
  apply psteps_cons with w1; [eapply pstep_harvest; eauto|].
  apply psteps_cons with w2; [auto|].
  apply psteps_cons with w3; [eapply pstep_resync; eauto|].
  apply psteps_cons with w4; [apply PFrame; eapply pframe_transferred; eauto|].
  apply psteps_one, PFrame. eapply pframe_deposited; eauto.
Qed.
Lemma psteps_unstaked e cx a n w w' : env_ok e -> unstaked_ok e cx a n w w' -> psteps e (un_config a) w w'.
Proof.
  intros OK [].
  pose proof (evolves_harvest _ _ _ _ _ _ _ _ _ H1) as E1.
  destruct (evolves_stake_at _ _ _ _ _ (evolves_refl e w) Hso Hbel) as [dd S0].
  destruct (evolves_stake _ _ _ _ _ _ E1 S0) as [d1 S1].
  assert (d1 = d) as -> by (apply stake_of_some in S1 as (_ & S1 & _); congruence).
  destruct (psteps_evolves_config _ _ _ _ _ E1 Hco Hc0) as [O1 _].
  assert (pstep e (un_config a) w1 w2) as P2 by (rewrite H2; eapply pstep_put_del; eauto).
  assert (evolves e w1 w2) as E2 by (rewrite H2; eapply evolves_put_del; eauto).
  destruct (evolves_stake _ _ _ _ _ _ E2 S1) as [d2 S2].
  destruct (psteps_evolves_config _ _ _ _ _ E2 O1 Hc) as [O2 _].
  apply psteps_cons with w1; [eapply pstep_harvest; eauto|].
  apply psteps_cons with w2; [auto|].
  apply psteps_cons with w3; [eapply pstep_resync; eauto|].
  apply psteps_cons with w4; [apply PFrame; eapply pframe_withdrawn; eauto|].
  apply psteps_one, PFrame. eapply pframe_transferred; eauto.
Qed.
Lemma psteps_slashed e cx a n w w' : env_ok e -> slashed_any e cx a n w w' -> psteps e (sl_config a) w w'.
Proof.
  intros OK [cc0 Hco Hcc0 Hso Hbel []].
  pose proof (evolves_harvest _ _ _ _ _ _ _ _ _ H1) as E1.
  destruct (evolves_stake_at _ _ _ _ _ (evolves_refl e w) Hso Hbel) as [dd S0].
  destruct (evolves_stake _ _ _ _ _ _ E1 S0) as [d1 S1].
  assert (d1 = d) as -> by (apply stake_of_some in S1 as (_ & S1 & _); congruence).
  destruct (psteps_evolves_config _ _ _ _ _ E1 Hco Hc0) as [O1 _].
  assert (pstep e (sl_config a) w1 w2) as P2 by (rewrite H2; eapply pstep_put_del; eauto).
  assert (evolves e w1 w2) as E2 by (rewrite H2; eapply evolves_put_del; eauto).
  assert (pframe e w2 w3 /\ evolves e w2 w3) as [F3 E3].
  { destruct H3 as [[_ ->]|(_ & _ & H3)]; [split; [apply pframe_refl|apply evolves_refl]|].
    split; [eapply pframe_burned; eauto|eapply evolves_burned; eauto]. }
  pose proof (evolves_trans _ _ _ _ E2 E3) as E23.
  destruct (evolves_stake _ _ _ _ _ _ E23 S1) as [d2 S2].
  destruct (psteps_evolves_config _ _ _ _ _ E23 O1 Hc) as [O2 _].
  apply psteps_cons with w1; [eapply pstep_harvest; eauto|].
  apply psteps_cons with w2; [auto|].
  apply psteps_cons with w3; [apply PFrame; auto|].
  apply psteps_one. eapply pstep_resync; eauto.
Qed.
Lemma psteps_moved e cx a n w w' : moved_ok e cx a n w w' -> psteps e (mv_config a) w w'.
Proof.
  intros [].
  pose proof (evolves_harvest _ _ _ _ _ _ _ _ _ H1) as E1.
  pose proof (evolves_harvest _ _ _ _ _ _ _ _ _ H2) as E2.
  pose proof (evolves_trans _ _ _ _ E1 E2) as E12.
  destruct (psteps_evolves_config _ _ _ _ _ E1 Hco Hc0) as [O1 [c1 C1]].
  destruct (psteps_evolves_config _ _ _ _ _ E12 Hco Hc0) as [O2 [c2 C2]].
  assert (stake_of e w (mv_config a) (mv_source a) = Some (s_del s0)) as S0.
  { apply stake_of_intro; rewrite ?Hs0; auto; exact Hsk. }
  assert (stake_of e w1 (mv_config a) (mv_dest a) = Some (s_del t0)) as T1.
  { apply stake_of_intro; rewrite ?Ht0, ?(ev_own _ _ _ E1); auto; exact Htk. }
  destruct (evolves_stake _ _ _ _ _ _ E12 S0) as [d2 S2].
  assert (d2 = s_del s) as -> by (apply stake_of_some in S2 as (_ & S2 & _); rewrite Hs in S2; simpl in S2; congruence).
  destruct (evolves_stake _ _ _ _ _ _ E2 T1) as [x2 T2].
  assert (x2 = s_del t) as -> by (apply stake_of_some in T2 as (_ & T2 & _); rewrite Ht in T2; simpl in T2; congruence).
  assert (pstep e (mv_config a) w2 w3) as P3 by (rewrite H3; eapply pstep_put_del; eauto).
  assert (evolves e w2 w3) as E3.
  { rewrite H3. eapply evolves_put_del; [rewrite Hs; reflexivity| |]; reflexivity. }
  destruct (psteps_evolves_config _ _ _ _ _ E3 O2 C2) as [O3 [c3 C3]].
  assert (stake_of e w3 (mv_config a) (mv_dest a) = Some (s_del t)) as T3.
  { destruct (evolves_stake _ _ _ _ _ _ E3 T2) as [x3 T3]. rewrite T3. f_equal.
    apply stake_of_some in T3 as (_ & T3 & _). rewrite H3 in T3. wsi T3.
    destruct (N.eqb_spec (mv_source a) (mv_dest a)); [congruence|]. rewrite Ht in T3. simpl in T3. congruence. }
  assert (pstep e (mv_config a) w3 w4) as P4 by (rewrite H4; eapply pstep_put_del; eauto).
  assert (evolves e w3 w4) as E4.
  { rewrite H4. pose proof T3 as T3'. apply stake_of_some in T3' as (_ & T3' & _). eapply evolves_put_del; eauto. }
  destruct (psteps_evolves_config _ _ _ _ _ E4 O3 C3) as [O4 [c4 C4]].
  destruct (evolves_stake _ _ _ _ _ _ (evolves_trans _ _ _ _ E3 E4) S2) as [d4 S4].
  pose proof (evolves_resync e _ _ _ _ _ H5) as E5.
  destruct (psteps_evolves_config _ _ _ _ _ E5 O4 C4) as [O5 [c5 C5]].
  destruct (evolves_stake _ _ _ _ _ _ (evolves_trans _ _ _ _ E4 E5) T3) as [x5 T5].
  apply psteps_cons with w1; [eapply pstep_harvest; eauto|].
  apply psteps_cons with w2; [eapply pstep_harvest; eauto|].
  apply psteps_cons with w3; [auto|].
  apply psteps_cons with w4; [auto|].
  apply psteps_cons with w5; [eapply pstep_resync; eauto|].
  apply psteps_one. eapply pstep_resync; eauto.
Qed.

(** A validator address of [ck] owned by the program holds that validator's stake. *)
Lemma sane_val_belongs e w k v vt ck : env_ok e -> sane e w -> own (get w k) = e_prog e ->
  dat (get w k) = DVal v -> k = e_val e vt ck -> vote (v_del v) = vt /\ stake_of e w ck k = Some (v_del v).
Proof.
  intros OK S O D K. destruct (sane_val _ _ S k v (conj O D)) as (ck' & c' & K' & _).
  rewrite K in K'. apply (ok_val_inj e OK) in K' as [V C]. split; [auto|].
  apply stake_of_intro; auto; rewrite D; simpl; congruence.
Qed.
Lemma psteps_revalidated e w ck c vhr vs vk vt vauth f w' : env_ok e -> sane e w ->
  own (get w ck) = e_prog e -> dat (get w ck) = DConfig c -> own (get w vk) = e_prog e ->
  vk = e_val e vt ck -> revalidated e w ck vhr vs vk vauth f w' -> psteps e ck w w'.
Proof.
  intros OK S O C VO VK [].
  pose proof (evolves_harvest _ _ _ _ _ _ _ _ _ H1) as E1.
  pose proof (sane_evolves _ _ _ S E1) as S1.
  destruct (psteps_evolves_config _ _ _ _ _ E1 O C) as [O1 [c1 C1]].
  assert (own (get w1 vk) = e_prog e) as VO1 by (rewrite (ev_own _ _ _ E1); auto).
  destruct (sane_val_belongs _ _ _ _ _ _ OK S1 VO1 Hv VK) as [VV ST1].
  assert (exists d0, stake_of e w ck vk = Some d0) as [d0 ST0].
  { pose proof (ev_id _ _ _ E1 vk VO) as I. rewrite Hv in I. apply same_id_val in I as (v0 & V0 & _).
    destruct (sane_val_belongs _ _ _ _ _ _ OK S VO V0 VK) as [_ X]. eauto. }
  assert (pstep e ck w1 w2) as P2.
  { rewrite H2. refine (pstep_setd _ _ _ _ _ (DVal (set_v_total v t)) _ (v_del v) O1 C1 ST1 _ eq_refl eq_refl). simpl. rewrite VV. auto. }
  assert (evolves e w1 w2) as E2.
  { rewrite H2. apply evolves_setd; rewrite Hv; try discriminate; reflexivity. }
  destruct (psteps_evolves_config _ _ _ _ _ E2 O1 C1) as [O2 _].
  destruct (evolves_stake _ _ _ _ _ _ E2 ST1) as [d2 ST2].
  apply psteps_cons with w1; [eapply pstep_harvest; eauto|].
  apply psteps_cons with w2; [auto|].
  apply psteps_one. eapply pstep_resync; eauto.
Qed.
Lemma psteps_left e w a s c w' : env_ok e -> sane e w -> own (get w (hs_config a)) = e_prog e ->
  dat (get w (hs_config a)) = DConfig c -> left_ok e w a s w' -> psteps e (hs_config a) w w'.
Proof. intros OK S O C []; [eapply psteps_revalidated; eauto|subst; apply psteps_refl]. Qed.
Lemma psteps_joined e w a c cv cs w' cv' cs' : env_ok e -> sane e w -> own (get w (hs_config a)) = e_prog e ->
  dat (get w (hs_config a)) = DConfig c -> joined_ok e w a cv cs w' cv' cs' -> psteps e (hs_config a) w w'.
Proof. intros OK S O C []; [eapply psteps_revalidated; eauto|subst; apply psteps_refl|subst; apply psteps_refl]. Qed.
Lemma psteps_harvested_sol e cx a w w' : env_ok e -> sane e w -> harvested_sol_ok e cx a w w' ->
  psteps e (hs_config a) w w'.
Proof.
  intros OK S [].
  - apply psteps_one. eapply pstep_harvest; eauto. apply stake_of_intro; rewrite ?Hs; auto; try reflexivity; try exact Hk.
  - assert (stake_of e w (hs_config a) (hs_stake a) = Some (s_del s)) as ST0.
    { apply stake_of_intro; rewrite ?Hs; auto; try reflexivity; try exact Hk. }
    pose proof (evolves_harvest _ _ _ _ _ _ _ _ _ H1) as E1.
    pose proof (sane_evolves _ _ _ S E1) as S1.
    destruct (psteps_evolves_config _ _ _ _ _ E1 Hco Hc0) as [O1 [c1 C1]].
    pose proof (evolves_left _ _ _ _ _ H2) as E2.
    pose proof (sane_evolves _ _ _ S1 E2) as S2.
    destruct (psteps_evolves_config _ _ _ _ _ E2 O1 C1) as [O2 [c2 C2]].
    pose proof (evolves_joined _ _ _ _ _ _ _ _ H3) as E3.
    destruct (psteps_evolves_config _ _ _ _ _ E3 O2 C2) as [O3 [c3 C3]].
    pose proof (evolves_trans _ _ _ _ E1 (evolves_trans _ _ _ _ E2 E3)) as E13.
    destruct (evolves_stake _ _ _ _ _ _ E13 ST0) as [d3 ST3].
    pose proof ST3 as ST3'. apply stake_of_some in ST3' as (SO3 & D3 & B3). rewrite Hs3 in D3, B3.
    injection D3 as <-. simpl in B3.
    assert (pstep e (hs_config a) w3 w4) as P4.
    { rewrite H4. eapply pstep_setd; [exact O3|exact C3|exact ST3| |reflexivity|reflexivity]. exact B3. }
    assert (evolves e w3 w4) as E4.
    { rewrite H4. apply evolves_setd; rewrite Hs3; try discriminate; simpl; auto. }
    destruct (psteps_evolves_config _ _ _ _ _ E4 O3 C3) as [O4 _].
    destruct (evolves_stake _ _ _ _ _ _ E4 ST3) as [d4 ST4].
    apply psteps_trans with w1; [apply psteps_one; eapply pstep_harvest; eauto|].
    apply psteps_trans with w2; [eapply psteps_left; eauto|].
    apply psteps_trans with w3; [eapply psteps_joined; eauto|].
    apply psteps_cons with w4; [auto|].
    apply psteps_one. eapply pstep_resync; eauto.
Qed.
Lemma pstep_config e w ck c c' : own (get w ck) = e_prog e -> dat (get w ck) = DConfig c ->
  cfg_effective c' = cfg_effective c -> pstep e ck w (setd w ck (DConfig c')).
Proof.
  intros O C E. apply (PConfig e ck w _ c c'); auto.
  - intros k. now ws.
  - ws. now rewrite N.eqb_refl.
  - intros k NE _. ws. destruct (N.eqb_spec ck k); congruence.
Qed.
Lemma psteps_held e cx a w w' : env_ok e -> held_ok e cx a w w' -> psteps e (hh_config a) w w'.
Proof.
  intros OK []. pose proof H1 as H1'. destruct H1' as [c1 rpt Hc1 _ _ Hw1].
  pose proof (evolves_synced e _ _ _ H1) as E1.
  pose proof (pframe_rharvested _ _ _ _ _ _ _ _ _ _ OK H2) as E2.
  apply psteps_cons with w1. { rewrite Hw1. eapply pstep_config; eauto. }
  apply psteps_cons with w2. { apply PFrame. eapply pframe_rharvested; eauto. }
  apply psteps_cons with w3. { apply PFrame. rewrite H3. split; intros; ws; auto. }
  apply psteps_one. rewrite H4. apply pstep_config with c; [| |reflexivity]; rewrite H3; ws; [|exact Hc].
  rewrite (proj1 E2), (ev_own _ _ _ E1). auto.
Qed.

Lemma did_psteps e cx w w' c : env_ok e -> sane e w -> did e cx w w' c -> creates c = false ->
  psteps e (call_config c) w w'.
Proof.
  intros OK S D. destruct D; simpl; intros NC; try discriminate NC.
  - eapply psteps_staked; eauto.
  - eapply psteps_held; eauto.
  - destruct H. apply psteps_one. eapply pstep_harvest; eauto. apply stake_of_intro; rewrite ?Hv; auto; try reflexivity; try exact Hk.
  - eapply psteps_slashed; eauto.
  - destruct H. subst w'. apply psteps_one. eapply pstep_config; eauto. destruct t; reflexivity.
  - destruct H. subst w'. apply psteps_one. eapply pstep_config; eauto. destruct f; reflexivity.
  - eapply psteps_staked; eauto.
  - eapply psteps_harvested_sol; eauto.
  - eapply psteps_unstaked; eauto.
  - eapply psteps_slashed; eauto.
  - eapply psteps_moved; eauto.
  - destruct H.
    assert (stake_of e w (ov_config a) (ov_stake a) = Some (v_del v0)) as ST0.
    { apply stake_of_intro; rewrite ?Hv0; auto; try reflexivity; try exact Hk. }
    pose proof (evolves_harvest _ _ _ _ _ _ _ _ _ H1) as E1.
    destruct (psteps_evolves_config _ _ _ _ _ E1 Hco Hc0) as [O1 [c1 C1]].
    destruct (evolves_stake _ _ _ _ _ _ E1 ST0) as [d1 ST1].
    pose proof ST1 as ST1'. apply stake_of_some in ST1' as (SO1 & D1 & B1). rewrite Hv in D1, B1.
    injection D1 as <-. simpl in B1.
    assert (pstep e (ov_config a) w1 w2) as P2.
    { rewrite H2. eapply pstep_setd; [exact O1|exact C1|exact ST1| |reflexivity|reflexivity]. exact B1. }
    assert (evolves e w1 w2) as E2.
    { rewrite H2. apply evolves_setd; rewrite Hv; try discriminate; reflexivity. }
    destruct (psteps_evolves_config _ _ _ _ _ E2 O1 C1) as [O2 _].
    destruct (evolves_stake _ _ _ _ _ _ E2 ST1) as [d2 ST2].
    apply psteps_cons with w1; [eapply pstep_harvest; eauto|].
    apply psteps_cons with w2; [auto|].
    apply psteps_one. eapply pstep_resync; eauto.
  - destruct H. subst w'. apply psteps_one.
    destruct (sane_val_belongs _ _ _ _ _ _ OK S Hso Hv Hk) as [_ ST]. eapply pstep_put_del; eauto.
Qed.

(** ** Effective total (C01) *)
Definition effsum (e : env) (w : world) : Prop :=
  forall ck c, config_at e w ck c -> cfg_effective c = sum_of e w ck effective.

Lemma pstep_stake_of_other e ck w w' : env_ok e -> pstep e ck w w' ->
  forall ck' k, ck' <> ck -> stake_of e w' ck' k = stake_of e w ck' k.
Proof.
  intros OK [] ck' k NE.
  - destruct (N.eq_dec k ck) as [->|N1].
    { rewrite (stake_of_config _ _ _ _ _ Hc), (stake_of_config _ _ _ _ _ Hc'). auto. }
    destruct (N.eq_dec k sk) as [->|N2].
    { rewrite (stake_of_other _ _ _ _ _ _ OK Hs NE), (stake_of_other _ _ _ _ _ _ OK Hs' NE). auto. }
    apply stake_of_eq; auto.
  - destruct (N.eq_dec k ck) as [->|N1].
    { rewrite (stake_of_config _ _ _ _ _ Hc), (stake_of_config _ _ _ _ _ Hc'). auto. }
    apply stake_of_eq; auto.
  - now apply pframe_stake_of.
Qed.
Lemma pstep_config_other e ck w w' : pstep e ck w w' -> forall k c', k <> ck ->
  (config_at e w' k c' <-> config_at e w k c').
Proof.
  intros [] k cx NE; unfold config_at.
  - rewrite Ho. destruct (N.eq_dec k sk) as [->|N2].
    + split; intros [_ X]; exfalso; [eapply (stake_not_config e w')|eapply (stake_not_config e w)]; eauto.
    + split; intros [O D]; (split; [assumption|]); rewrite <- D; [symmetry|]; apply Hoth; auto.
  - rewrite Ho. split; intros [O D]; (split; [assumption|]); rewrite <- D; [symmetry|]; apply Hoth; auto.
  - destruct Hf as [A B]. rewrite A. split; intros [O D]; (split; [assumption|]); rewrite <- D; [symmetry|]; apply B; auto.
Qed.
Lemma effsum_pstep e ck w w' : env_ok e -> effsum e w -> pstep e ck w w' -> effsum e w'.
Proof.
  intros OK F P k c C. destruct (N.eq_dec k ck) as [->|NE].
  - destruct P.
    + destruct C as [O D]. assert (c = c') as -> by congruence.
      pose proof (F ck c0 (conj Hco Hc)) as E0.
      assert (delta e w w' sk d') as DE.
      { intros ck' k. destruct (N.eqb_spec sk k) as [<-|NK].
        - destruct (N.eq_dec ck' ck) as [->|NC]; [now rewrite Hs, Hs'|].
          now rewrite (stake_of_other _ _ _ _ _ _ OK Hs NC), (stake_of_other _ _ _ _ _ _ OK Hs' NC).
        - destruct (N.eq_dec k ck) as [->|N1].
          { rewrite (stake_of_config _ _ _ _ _ Hc), (stake_of_config _ _ _ _ _ Hc'). auto. }
          apply stake_of_eq; auto. }
      pose proof (sum_of_delta _ _ _ _ effective _ _ _ DE Hs). lia.
    + destruct C as [O D]. assert (c = c') as -> by congruence.
      rewrite (sum_of_eq e w w'); [rewrite He; apply F; split; auto|].
      intros k. destruct (N.eq_dec k ck) as [->|N1].
      { rewrite (stake_of_config _ _ _ _ _ Hc), (stake_of_config _ _ _ _ _ Hc'). auto. }
      apply stake_of_eq; auto.
    + rewrite (sum_of_eq e w w') by (intros; now apply pframe_stake_of).
      apply F. destruct C as [O D], Hf as [A B]. rewrite A in O. split; [auto|]. now rewrite <- B.
  - rewrite (sum_of_eq e w w'); [|intros; now apply (pstep_stake_of_other e ck)].
    apply F. now apply (pstep_config_other e ck w w').
Qed.
Lemma effsum_psteps e ck w w' : env_ok e -> psteps e ck w w' -> effsum e w -> effsum e w'.
Proof. intros OK H. induction H; auto. intros. apply IHpsteps. eapply effsum_pstep; eauto. Qed.

(** No stake accounts without a config. *)
Lemma stake_needs_config e w ck k d : env_ok e -> sane e w -> stake_of e w ck k = Some d ->
  exists c, config_at e w ck c.
Proof.
  intros OK S H. apply stake_of_some in H as (O & D & B).
  destruct (dat (get w k)) eqn:E; simpl in B; try contradiction.
  - destruct (sane_val _ _ S k v (conj O E)) as (ck' & c & K & C). rewrite B in K.
    apply (ok_val_inj e OK) in K as [_ ->]. eauto.
  - destruct (sane_sol _ _ S k s (conj O E)) as (ck' & c & K & C). rewrite B in K.
    apply (ok_sol_inj e OK) in K as [_ ->]. eauto.
Qed.
Lemma sum_of_none e w ck g : (forall k, stake_of e w ck k = None) -> sum_of e w ck g = 0.
Proof.
  intros H. rewrite (sum_of_eq e ∅ w ck g).
  - unfold sum_of. apply wsum_empty.
  - intros k. rewrite H. unfold stake_of. rewrite get_empty. unfold stake_in. now destruct (_ =? _).
Qed.

Lemma stake_of_created_config e cx a s au cd b sy du w w' : env_ok e -> sane e w ->
  config_created e cx a s au cd b sy du w w' -> forall ck k, stake_of e w' ck k = stake_of e w ck k.
Proof.
  intros OK S H. destruct (config_created_facts _ _ _ _ _ _ _ _ _ _ _ OK S H) as (bs & D & NB & O & NP & NE).
  destruct H. intros ck k. unfold stake_of, stake_in. rewrite Ho, Hd.
  destruct (N.eqb_spec (ic_config a) k) as [<-|N1].
  - rewrite D. destruct (_ =? _); destruct (_ =? _); auto.
  - destruct (N.eqb_spec (ic_vault_pda a) k) as [<-|]; auto.
    rewrite N.eqb_refl, Hve. now destruct (_ =? _).
Qed.
(** A new stake account has nothing in it. *)
Lemma sum_of_created e w w' nk g d0 ck0 : own (get w nk) <> e_prog e -> g d0 = 0 ->
  stake_of e w' ck0 nk = Some d0 -> env_ok e ->
  (forall ck k, k <> nk -> stake_of e w' ck k = stake_of e w ck k) ->
  forall ck, sum_of e w' ck g = sum_of e w ck g.
Proof.
  intros O Z S OK R ck. unfold sum_of.
  apply wsum_eq; auto using sum_of_zero_default. intros k.
  destruct (N.eq_dec k nk) as [->|NE].
  - change (match stake_of e w' ck nk with Some d => g d | None => 0 end =
            match stake_of e w ck nk with Some d => g d | None => 0 end).
    assert (stake_of e w ck nk = None) as ->.
    { unfold stake_of, stake_in. apply N.eqb_neq in O. now rewrite O. }
    destruct (N.eq_dec ck ck0) as [->|NC]; [now rewrite S|].
    now rewrite (stake_of_other _ _ _ _ _ _ OK S NC).
  - specialize (R ck k NE). unfold stake_of in R. now rewrite R.
Qed.
Lemma stake_of_created_val e cx a w w' : env_ok e -> val_created e cx a w w' ->
  (exists d0, stake_of e w' (iv_config a) (iv_stake a) = Some d0 /\ staked d0 = 0 /\ effective d0 = 0 /\
     own (get w (iv_stake a)) <> e_prog e) /\
  (forall ck k, k <> iv_stake a -> stake_of e w' ck k = stake_of e w ck k).
Proof.
  intros OK []. pose proof (prog_ids e OK) as (P0 & _). split.
  - exists (Del 0 0 0 wd (iv_vote a) 0 0). repeat split; auto; [|congruence].
    apply stake_of_intro; rewrite ?Ho, ?Hd, ?N.eqb_refl; auto; try exact Hk.
  - intros ck k NE. unfold stake_of, stake_in. rewrite Ho, Hd. destruct (N.eqb_spec (iv_stake a) k); congruence.
Qed.
Lemma stake_of_created_sol e cx a w w' : env_ok e -> sol_created e cx a w w' ->
  (exists d0, stake_of e w' (is_config a) (is_stake a) = Some d0 /\ staked d0 = 0 /\ effective d0 = 0 /\
     own (get w (is_stake a)) <> e_prog e) /\
  (forall ck k, k <> is_stake a -> stake_of e w' ck k = stake_of e w ck k).
Proof.
  intros OK []. pose proof (prog_ids e OK) as (P0 & _).
  assert (is_val a <> is_stake a) as NV by (intros EE; rewrite EE in Hv; congruence). split.
  - exists (Del 0 0 0 au (vw_vote vw) 0 0).
    assert (dat (get w' (is_stake a)) = DSol (SStake (Del 0 0 0 au (vw_vote vw) 0 0) (vw_effective vw) (is_native a))) as D.
    { rewrite Hd, N.eqb_refl. destruct (N.eqb_spec (is_val a) (is_stake a)); congruence. }
    repeat split; auto; [|congruence].
    apply stake_of_intro; rewrite ?D, ?Ho, ?N.eqb_refl; auto; exact Hk.
  - intros ck k NE. unfold stake_of, stake_in. rewrite Ho, Hd. destruct (N.eqb_spec (is_stake a) k); [congruence|].
    destruct (N.eqb_spec (is_val a) k) as [<-|]; auto. rewrite Hv. reflexivity.
Qed.

Lemma effsum_did e cx w w' c : env_ok e -> sane e w -> effsum e w -> did e cx w w' c -> effsum e w'.
Proof.
  intros OK S F D. destruct (creates c) eqn:CR.
  - destruct D; try discriminate CR.
    + pose proof (stake_of_created_config _ _ _ _ _ _ _ _ _ _ _ OK S H) as ST.
      destruct (config_created_facts _ _ _ _ _ _ _ _ _ _ _ OK S H) as (bs & D & NB & O & NP & NE).
      intros ck c [O1 D1]. rewrite (sum_of_eq e w w') by auto. destruct H. rewrite Ho in O1. rewrite Hd in D1.
      destruct (N.eqb_spec (ic_config a) ck) as [<-|N1].
      * injection D1 as <-. simpl. symmetry. apply sum_of_none. intros k.
        destruct (stake_of e w (ic_config a) k) eqn:X; auto. exfalso.
        destruct (stake_needs_config _ _ _ _ _ OK S X) as [c0 [_ C0]]. congruence.
      * destruct (N.eqb_spec (ic_vault_pda a) ck) as [<-|]; [congruence|]. apply F. split; auto.
    + destruct (stake_of_created_val _ _ _ _ _ OK H) as [(d0 & S0 & _ & E0 & NO) R].
      intros ck c [O1 D1]. rewrite (sum_of_created e w w' (iv_stake a) effective d0 _ NO E0 S0 OK R).
      destruct H. rewrite Ho in O1. rewrite Hd in D1.
      destruct (N.eqb_spec (iv_stake a) ck); [discriminate|]. apply F. split; auto.
    + destruct (stake_of_created_sol _ _ _ _ _ OK H) as [(d0 & S0 & _ & E0 & NO) R].
      intros ck c [O1 D1]. rewrite (sum_of_created e w w' (is_stake a) effective d0 _ NO E0 S0 OK R).
      destruct H. rewrite Ho in O1. rewrite Hd in D1.
      destruct (N.eqb_spec (is_val a) ck); [discriminate|].
      destruct (N.eqb_spec (is_stake a) ck); [discriminate|]. apply F. split; auto.
  - eapply effsum_psteps; eauto. eapply did_psteps; eauto.
Qed.

Lemma rely_stake_of e w w' : rely e w w' -> forall ck k, stake_of e w' ck k = stake_of e w ck k.
Proof.
  intros R ck k. destruct (N.eq_dec (own (get w k)) (e_prog e)) as [E|E].
  - destruct (rely_owned _ _ _ R k E) as [(A & B & _)|(_ & [n Z] & X & _)]; [apply stake_of_eq; congruence|].
    unfold stake_of, stake_in. rewrite Z, E, N.eqb_refl.
    destruct (N.eqb_spec (own (get w' k)) (e_prog e)) as [E'|]; auto. destruct (X E') as [m ->]. auto.
  - unfold stake_of, stake_in. rewrite (proj2 (N.eqb_neq _ _) E).
    destruct (N.eqb_spec (own (get w' k)) (e_prog e)) as [E'|]; auto.
    destruct (rely_new _ _ _ R k E E') as [n ->]. auto.
Qed.
Lemma rely_config e w w' k c : rely e w w' -> config_at e w' k c -> config_at e w k c.
Proof.
  intros R [O D]. destruct (rely_back _ _ _ k R O) as [[n X]|(A & B & _)]; [congruence|]. split; congruence.
Qed.
Lemma effsum_rely e w w' : effsum e w -> rely e w w' -> effsum e w'.
Proof.
  intros F R ck c C. rewrite (sum_of_eq e w w') by (intros; now apply rely_stake_of).
  apply F. eapply rely_config; eauto.
Qed.
