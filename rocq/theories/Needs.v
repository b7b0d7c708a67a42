(** Every successful instruction was given the accounts of [SpecNeeds.v]. *)
From Verif Require Import Base Types Layout Instr Math External Processor Runtime History Spec SpecReward SpecLive SpecNeeds
  WorldLemmas Effects Handlers Evolve Sane Wf Totals Arith Nets Caps Stakers Deposits Inv Rewards Collect Pays Live.

(** ** Token accounts, mints and holder accounts are not touched by the program's own steps *)
Definition plain (D : adata) : Prop := match D with DToken _ | DMint _ | DHolder _ => True | _ => False end.
Definition keeps (w w' : world) : Prop :=
  (forall k, own (get w' k) = own (get w k)) /\ (forall k, plain (dat (get w' k)) -> dat (get w' k) = dat (get w k)).
Lemma keeps_trans w1 w2 w3 : keeps w1 w2 -> keeps w2 w3 -> keeps w1 w3.
Proof.
  intros [O1 D1] [O2 D2]. split; intros k; [now rewrite O2|]. intros P. pose proof (D2 k P) as E. rewrite E in *. auto.
Qed.
Lemma plain_upd D x : plain (upd_del D x) -> upd_del D x = D.
Proof. destruct D; simpl; auto; contradiction. Qed.
Lemma keeps_harvested e w ck vhr auth va sk kp w' : harvested e w ck vhr auth va sk kp w' -> keeps w w'.
Proof.
  intros []. split; auto. intros k. rewrite Hdat. destruct (ck =? k); [contradiction|].
  destruct (N.eqb_spec sk k) as [->|]; auto. apply plain_upd.
Qed.
Lemma keeps_put w k x : keeps w (put_del w k x).
Proof.
  unfold put_del. split; intros j; [now ws|]. ws. destruct (N.eqb_spec k j) as [->|]; auto. apply plain_upd.
Qed.
Lemma keeps_resynced w ck sk l w' : resynced w ck sk l w' -> keeps w w'.
Proof.
  intros []. split; auto. intros k. rewrite Hdat. destruct (ck =? k); [contradiction|].
  destruct (N.eqb_spec sk k) as [->|]; auto. apply plain_upd.
Qed.
Lemma keeps_setd w k D : ~ plain D -> keeps w (setd w k D).
Proof. intros NP. split; intros j; [now ws|]. ws. destruct (N.eqb_spec k j) as [->|]; auto. contradiction. Qed.
Lemma keeps_dat w w' k D : keeps w w' -> plain D -> dat (get w' k) = D -> dat (get w k) = D.
Proof. intros [_ K] P E. specialize (K k). rewrite E in K. symmetry. auto. Qed.
Lemma keeps_own w w' k o : keeps w w' -> own (get w' k) = o -> own (get w k) = o.
Proof. intros [K _]. now rewrite K. Qed.

(** ** Token transfers change amounts and delegations only *)
Definition alike (t t' : token) : Prop := t_mint t = t_mint t' /\ t_owner t = t_owner t' /\ t_frozen t = t_frozen t'.
Lemma usable_keeps e w w' k m t : keeps w w' -> usable e w' k m t -> usable e w k m t.
Proof.
  intros K (O & D & M & F). split; [eapply keeps_own; eauto|]. split; [|auto]. eapply keeps_dat; eauto. exact I.
Qed.
Lemma mint_keeps e w w' k : keeps w w' -> is_mint e w' k -> is_mint e w k.
Proof.
  intros K (O & m & D). split; [eapply keeps_own; eauto|]. exists m. eapply keeps_dat; eauto. exact I.
Qed.
Lemma pool_keeps e w w' p q v m : keeps w w' -> pool_accounts e w' p q v m -> pool_accounts e w p q v m.
Proof.
  intros K (A & B & C & t & D & E & F & G). split; [auto|]. do 2 (split; [eapply keeps_own; eauto|]).
  exists t. split; [eapply keeps_own; eauto|]. split; [eapply keeps_dat; eauto; exact I|auto].
Qed.
Lemma transfer_needs e sig w src mnt dst auth n w' : token_transfer e sig w src mnt dst auth n = Ok w' ->
  is_mint e w mnt /\ sig auth = true /\
  (exists t, usable e w src mnt t /\ spender t auth /\ n <= t_amount t) /\ (exists t, usable e w dst mnt t).
Proof.
  intros H. unfold token_transfer in H. stepn H s ES. stepn H d ED. stepg H G1. stepg H G2. stepg H G3. stepn H m EM. stepn H s' EA.
  apply token_at_ok in ES as [S1 S2]. apply token_at_ok in ED as [D1 D2]. apply mint_at_ok in EM as [M1 M2].
  apply token_authorise_ok in EA as (A1 & A2 & _). apply andb_true_iff in G1 as [F1 F2]. apply negb_true_iff in F1, F2.
  apply andb_true_iff in G3 as [E1 E2]. b2p E1. b2p E2.
  split; [split; eauto|]. split; [auto|]. split.
  - exists s. split; [split; auto|]. split; [exact A2|auto].
  - exists d. split; [auto|]. split; [auto|]. split; [congruence|auto].
Qed.
Lemma transferred_back e sig w src mnt dst auth n w' k t' : transferred e sig w src mnt dst auth n w' ->
  dat (get w' k) = DToken t' -> exists t, dat (get w k) = DToken t /\ alike t t'.
Proof.
  intros [] E. rewrite Hdat in E. apply token_authorise_ok in Hau as (_ & _ & A1 & A2 & _ & _ & A3 & _).
  destruct (src =? dst); [exists t'; repeat split; auto|].
  destruct (N.eqb_spec src k) as [<-|]; [injection E as <-; exists s; repeat split; auto|].
  destruct (N.eqb_spec dst k) as [<-|]; [injection E as <-; exists d; repeat split; auto|]. exists t'. repeat split; auto.
Qed.
Lemma transferred_mint e sig w src mnt dst auth n w' k m : transferred e sig w src mnt dst auth n w' ->
  dat (get w' k) = DMint m -> dat (get w k) = DMint m.
Proof.
  intros [] E. rewrite Hdat in E. destruct (src =? dst); auto. destruct (src =? k); [discriminate|]. destruct (dst =? k); [discriminate|auto].
Qed.
Lemma usable_back e sig w src mnt dst auth n w' k m t' : transferred e sig w src mnt dst auth n w' -> usable e w' k m t' ->
  exists t, usable e w k m t /\ t_owner t = t_owner t'.
Proof.
  intros T (O & D & M & F). destruct (transferred_back _ _ _ _ _ _ _ _ _ _ _ T D) as (t & D' & A1 & A2 & A3).
  exists t. destruct T. rewrite Ho in O. repeat split; congruence.
Qed.

(** ** The settled stake *)
Lemma harvested_needs e w ck vhr auth sk kp w' : wf_world w -> own (get w sk) = e_prog e ->
  belongs e ck sk (dat (get w sk)) -> harvested e w ck vhr auth (e_vault e ck) sk kp w' ->
  exists d, del_of (dat (get w sk)) = Ok d /\ can_settle e w ck sk auth vhr d.
Proof.
  intros WF O B []. exists d. split; [auto|].
  assert (stake_of e w ck sk = Some d) as SD.
  { unfold stake_of, stake_in. rewrite O, N.eqb_refl. destruct (dat (get w sk)); try discriminate; simpl in B, Hd;
      injection Hd as <-; rewrite B at 1; now rewrite N.eqb_refl. }
  split; [exact SD|]. split; [auto|]. split; [auto|]. split; [eauto|].
  assert (cfg_acc c < U128) as AB by (pose proof (wf_dat _ ck WF) as W; rewrite Hc in W; simpl in W; tauto).
  apply eligible_ok in Hsr as [Hsr _]. apply eligible_ok in Hhr as [Hhr _].
  rewrite (acc_now_rpt _ _ _ AB Hr), since_wsub in Hsr. rewrite since_wsub in Hhr.
  unfold pending. rewrite SD, Hc. unfold stake_claim, holder_claim, holder_acc. rewrite <- Hv, Hh.
  change SCALE with (10 ^ 18) in *. rewrite <- Hsr, <- Hhr. lia.
Qed.
Lemma cap_from D x : wf_data D -> calculate_maximum_stake (limits D) = Ok x -> cap_fits D.
Proof.
  intros W H. assert (forall l, l < U64 -> limits D = l -> 13 * l / 10 < U64) as K.
  { intros l B E. rewrite E, maxstake_eq in H by auto. destruct (N.ltb_spec (13 * l / 10) U64); [auto|discriminate]. }
  split; intros v E; subst D; simpl in W, K.
  - unfold cappable, cap. apply (K (N.max (v_total v) (v_min v))); auto. destruct W as (W1 & W2 & W3). lia.
  - unfold cap. specialize (K (s_lamports v)). rewrite N.max_0_r in K. apply K; auto. tauto.
Qed.
Lemma stake_val e w ck k d v : stake_of e w ck k = Some d -> dat (get w k) = DVal v -> d = v_del v.
Proof. intros S D. apply stake_of_some in S as (_ & E & _). rewrite D in E. simpl in E. congruence. Qed.
Lemma stake_sol e w ck k d s : stake_of e w ck k = Some d -> dat (get w k) = DSol s -> d = s_del s.
Proof. intros S D. apply stake_of_some in S as (_ & E & _). rewrite D in E. simpl in E. congruence. Qed.

(** ** Staking *)
Lemma deposit_needs e sig w pool ptok vhr tacc mnt owner tp n acc w' :
  rewards_deposit e sig w pool ptok vhr tacc mnt owner tp n acc = Ok w' ->
  pool_accounts e w pool ptok vhr mnt /\ vhr = e_holder e owner /\ tp = e_token e /\
  exists t, dat (get w tacc) = DToken t /\ t_owner t = owner.
Proof.
  intros H. unfold rewards_deposit in H. stepn H h EH. stepn H t ET. stepg H G1. stepg H G2.
  apply rewards_checked_ok in EH as (P1 & P2 & (p & P3 & P4 & P5 & P6) & _ & P7 & P8 & _).
  apply token_at_ok in ET as [T1 T2]. apply andb_true_iff in G1 as [G1 G3]. b2p G1.
  split; [split; [auto|]; do 2 (split; [auto|]); exists p; auto|]. split; [auto|]. split; [auto|]. eauto.
Qed.
Lemma withdraw_needs e sig w pool ptok vhr tacc mnt owner tp n acc w' :
  rewards_withdraw e sig w pool ptok vhr tacc mnt owner tp n acc = Ok w' ->
  pool_accounts e w pool ptok vhr mnt /\ vhr = e_holder e owner /\ tp = e_token e /\
  (exists t, dat (get w tacc) = DToken t /\ t_owner t = owner) /\
  exists h p, dat (get w vhr) = DHolder h /\ dat (get w ptok) = DToken p /\ 0 < h_deposited h /\ h_deposited h <= t_amount p /\
  (n = U64 - 1 \/ n <= h_deposited h).
Proof.
  intros H. unfold rewards_withdraw in H. stepn H h EH. stepn H t ET. stepg H G1. stepg H G2. cbv zeta in H. stepn H p EP.
  stepg H G3. stepg H G4.
  apply rewards_checked_ok in EH as (P1 & P2 & (p' & P3 & P4 & P5 & P6) & _ & P7 & P8 & P9).
  apply token_at_ok in ET as [T1 T2]. apply andb_true_iff in G1 as [G1 _]. b2p G1.
  apply token_at_ok in EP as [_ EP]. apply andb_true_iff in G3 as [G3 G5]. apply negb_true_iff in G3. b2p G3. b2p G5.
  split; [split; [auto|]; do 2 (split; [auto|]); exists p'; auto|]. split; [auto|]. split; [auto|]. split; [eauto|].
  exists h, p. split; [auto|]. split; [auto|]. split; [lia|]. split; [auto|].
  destruct (N.eqb_spec n (U64 - 1)) as [E|]; auto.
Qed.
Lemma stake_needs e cx a co n w w' c0 : wf_world w -> config_at e w (st_config a) c0 -> own (get w (st_stake a)) = e_prog e ->
  belongs e (st_config a) (st_stake a) (dat (get w (st_stake a))) -> stake_tokens e cx a co n w = Ok w' ->
  exists d, del_of (dat (get w (st_stake a))) = Ok d /\ needs_stake e cx w a n c0 d.
Proof.
  intros WF [CO CD] SO B H. unfold stake_tokens in H. cbv zeta in H. stepn H w1 E1. apply harvest_ok in E1 as H1.
  pose proof (harvested_limits _ _ _ _ _ _ _ _ _ H1) as LIM.
  destruct (harvested_needs _ _ _ _ _ _ _ _ WF SO B H1) as (d0 & D0 & ST). exists d0. split; [auto|].
  stepn H c Ec. apply unpack_config_ok in Ec. stepg H Hvp. stepg H Hva. stepn H tu Eu. stepg H G3. stepg H G4.
  stepn H m4 E4. stepg H Hpos. stepn H d Ed. stepn H s Es. wsi H. rewrite N.eqb_refl in H. rewrite upd_del_limits_match in H.
  destruct (match dat (get w1 (st_stake a)) with
            | DVal v => (v_total v, v_min v) | DSol s => (s_lamports s, 0) | _ => (0,0) end)
    as [l lmin] eqn:EL.
  stepn H w3 E3. apply sync_effective_ok in E3.
  assert (N.max l lmin = limits (dat (get w (st_stake a)))) as EM.
  { rewrite <- LIM. apply del_of_ok in Ed as [(v & Ev & _)|(v & Ev & _)]; rewrite Ev in *; simpl;
      injection EL as <- <-; reflexivity. }
  rewrite EM in E3. stepn H u1 C1. stepn H w4 E5. destruct (transfer_needs _ _ _ _ _ _ _ _ _ E5) as (M & SG & (ts & US & SP & AM) & (tv & UV)).
  apply token_transfer_ok in E5 as H4. stepn H u2 C2. destruct (deposit_needs _ _ _ _ _ _ _ _ _ _ _ _ _ H) as (PA & VH & TP & t5 & DT & OT).
  assert (keeps w w3) as K.
  { eapply keeps_trans; [eapply keeps_harvested; eauto|]. eapply keeps_trans; [apply keeps_put|]. eapply keeps_resynced; eauto. }
  assert (cfg_vault c = cfg_vault c0) as EV.
  { destruct H1. rewrite Hdat, N.eqb_refl in Ec. injection Ec as <-. simpl. congruence. }
  destruct (transferred_back _ _ _ _ _ _ _ _ _ _ _ H4 DT) as (t6 & D6 & _ & A2 & _).
  constructor.
  - split; auto.
  - exact ST.
  - destruct E3. eapply cap_from; [apply (wf_dat _ _ WF)|eauto].
  - split; [congruence|]. split; [auto|]. exists tv. split; [eapply usable_keeps; eauto|].
    destruct UV as (_ & U2 & _). rewrite D6 in U2. injection U2 as <-. congruence.
  - eapply mint_keeps; eauto.
  - destruct PA as (P1 & P2 & P3 & p & P4 & P5 & P6 & P7).
    destruct (transferred_back _ _ _ _ _ _ _ _ _ _ _ H4 P5) as (t0 & D & A1 & A3 & A4).
    destruct H4. rewrite Ho in P2, P3, P4. eapply pool_keeps; [exact K|].
    split; [auto|]. do 2 (split; [auto|]). exists t0. split; [auto|]. split; [auto|split; congruence].
  - exact TP.
  - split; [auto|]. exists ts. split; [eapply usable_keeps; eauto|auto].
  - exact Hpos.
Qed.
Lemma harvested_del e w ck vhr auth va sk kp w' d0 d : harvested e w ck vhr auth va sk kp w' ->
  del_of (dat (get w sk)) = Ok d0 -> del_of (dat (get w' sk)) = Ok d ->
  staked d = staked d0 /\ cooldown d = cooldown d0 /\ authority d = authority d0.
Proof.
  intros H E0 E. pose proof (harvested_sk _ _ _ _ _ _ _ _ _ H) as NS. destruct H.
  rewrite Hd in E0. injection E0 as <-. rewrite Hdat, (proj2 (N.eqb_neq _ _) NS), N.eqb_refl in E.
  destruct (dat (get w sk)); try discriminate; simpl in E; injection E as <-; auto.
Qed.
Lemma harvested_cfg e w ck vhr auth va sk kp w' c0 c : harvested e w ck vhr auth va sk kp w' ->
  dat (get w ck) = DConfig c0 -> dat (get w' ck) = DConfig c ->
  cfg_vault c = cfg_vault c0 /\ cfg_bps c = cfg_bps c0 /\ cfg_slash c = cfg_slash c0 /\ cfg_authority c = cfg_authority c0 /\
  cfg_bump c = cfg_bump c0.
Proof.
  intros [] E0 E. rewrite Hc in E0. injection E0 as <-. rewrite Hdat, N.eqb_refl in E. injection E as <-. auto 6.
Qed.

(** ** Unstaking *)
Lemma unstake_needs e cx a n w w' : env_ok e -> inv e w -> unstake_tokens e cx a n w = Ok w' ->
  exists c d, needs_unstake e cx w a n c d.
Proof.
  intros OK IV H. pose proof (i_wf _ _ IV) as WF.
  unfold unstake_tokens in H. cbv zeta in H. stepn H c0 E0. apply load_config_ok in E0 as [O0 E0].
  stepg H G1. stepg H G2. stepn H t Et. stepg H G3. stepg H G4. stepn H pll EL.
  destruct pll as [[p l] lmin]. stepg H G5. apply load_any_ok in EL as (EL & LIM & _); auto.
  stepg H G6. stepn H d0 Ed0. stepg H G7. stepg H G8. stepn H m0 Em0. stepn H w1 E1.
  apply harvest_ok in E1 as H1. stepn H d Ed. stepn H c Ec. apply unpack_config_ok in Ec.
  stepg H G9. stepg H G10. stepn H m Em. stepg H G11. stepn H s Es. apply csub_ok in Es as [_ ->].
  stepn H w3 E3. apply sync_effective_ok in E3. rewrite LIM in E3.
  stepn H u1 C1. stepn H w4 E4. stepn H u2 C2.
  destruct (harvested_needs _ _ _ _ _ _ _ _ WF G4 EL H1) as (d1 & D1 & ST).
  rewrite Ed0 in D1. injection D1 as <-.
  destruct (harvested_del _ _ _ _ _ _ _ _ _ _ _ H1 Ed0 Ed) as (A1 & A2 & _).
  destruct (harvested_cfg _ _ _ _ _ _ _ _ _ _ _ H1 E0 Ec) as (V1 & V2 & _).
  apply maxdeact_ok in Em. rewrite A1, V2 in Em.
  assert (keeps w w3) as K.
  { eapply keeps_trans; [eapply keeps_harvested; eauto|]. eapply keeps_trans; [apply keeps_put|]. eapply keeps_resynced; eauto. }
  destruct (transfer_needs _ _ _ _ _ _ _ _ _ H) as (M & SG & (ts & US & _) & (td & UD)).
  destruct (withdraw_needs _ _ _ _ _ _ _ _ _ _ _ _ _ E4) as (PA & VH & TP & (tv & DV & OV) & h & q & DH & DQ & HP & HQ & HN).
  apply rewards_withdraw_ok in E4.
  assert (forall k m t, usable e w4 k m t -> exists t0, usable e w k m t0 /\ t_owner t0 = t_owner t) as BACK.
  { intros k m1 t1 (U1 & U2 & U3 & U4). destruct E4 as [h1 r0 r last v1 v2]. rewrite Ho in U1. rewrite Hdat in U2.
    destruct (usable_back _ _ _ _ _ _ _ _ _ _ _ _ Hw2 (conj U1 (conj U2 (conj U3 U4)))) as (t0 & (Q1 & Q2 & Q3 & Q4) & OO).
    subst v1. wsi Q1. wsi Q2. exists t0. split; [|auto]. eapply usable_keeps; eauto. split; [auto|]. split; [|auto].
    destruct (un_vhr a =? k); [discriminate|auto]. }
  assert (is_mint e w (un_mint a)) as MM.
  { eapply mint_keeps; eauto. destruct M as (M1 & mm & M2). destruct E4 as [h1 r0 r last v1 v2]. rewrite Ho in M1. rewrite Hdat in M2.
    pose proof (transferred_mint _ _ _ _ _ _ _ _ _ _ _ Hw2 M2) as M3. destruct Hw2. rewrite Ho0 in M1. subst v1. wsi M1. wsi M3.
    destruct (un_vhr a =? un_mint a); [discriminate|]. split; eauto. }
  exists c0, d0. constructor; auto.
  - split; auto.
  - destruct E3. eapply cap_from; [apply (wf_dat _ _ WF)|eauto].
  - split; [auto|]. split; [auto|]. destruct (BACK _ _ _ US) as (t0 & U0 & _). exists t0. split; [auto|].
    destruct U0 as (_ & U0 & _).
    destruct E4 as [h1 r0 r last v1 v2]. clear - OV DV K U0 G3. apply (keeps_dat w w3 (un_vault a) (DToken tv) K I) in DV. congruence.
  - eapply pool_keeps; eauto.
  - pose proof (i_backed _ _ IV (un_config a)) as BK. unfold deposit in *.
    assert (dat (get w (e_holder e (e_vault e (un_config a)))) = DHolder h) as DW.
    { rewrite <- G3, <- VH. rewrite VH in DH |- *. exact (keeps_dat w w3 _ (DHolder h) K I DH). }
    rewrite DW in *. split; [|split; [auto|]].
    + destruct ST as (ST & _). pose proof (sum_of_ge e w (un_config a) staked (un_stake a) d0 ST). lia.
    + exists q. split; [exact (keeps_dat w w3 _ (DToken q) K I DQ)|auto].
  - split; [congruence|]. destruct (BACK _ _ _ UD) as (t0 & U0 & _). eauto.
  - change (2 ^ 64) with U64. change MAX_BPS with 10000 in Em. rewrite <- A1 at 1. rewrite <- Em, <- A2. auto.
Qed.

(** ** Slashing *)
Lemma burn_needs e sig w src mnt auth n w' : token_burn e sig w src mnt auth n = Ok w' ->
  is_mint e w mnt /\ exists t, usable e w src mnt t /\ spender t auth /\ n <= t_amount t.
Proof.
  intros H. unfold token_burn in H. stepn H s Es. stepn H m Em. stepg H Gf. stepg H Ga. stepg H Gm. stepn H s' Eau.
  apply token_at_ok in Es as [S1 S2]. apply mint_at_ok in Em as [M1 M2].
  apply token_authorise_ok in Eau as (_ & A2 & _). split; [split; eauto|]. exists s. split; [unfold usable; auto|]. split; [exact A2|auto].
Qed.
Lemma slash_needs e cx a c0 l lmin n w w' : env_ok e -> inv e w -> config_at e w (sl_config a) c0 ->
  own (get w (sl_stake a)) = e_prog e -> belongs e (sl_config a) (sl_stake a) (dat (get w (sl_stake a))) ->
  N.max l lmin = limits (dat (get w (sl_stake a))) ->
  slash_stake e cx a c0 l lmin n w = Ok w' ->
  exists d, del_of (dat (get w (sl_stake a))) = Ok d /\ needs_slash e cx w a n c0 d.
Proof.
  intros OK IV CA SO BE LIM H. pose proof (i_wf _ _ IV) as WF. unfold slash_stake in H. stepn H vs Ev.
  destruct (e_create_vault e (sl_config a) (cfg_bump c0)) as [vs'|] eqn:EV; [|discriminate].
  injection Ev as ->. stepg H G1. subst vs. apply (vault_auth_eq _ _ _ _ _ OK (i_sane _ _ IV) CA) in EV.
  stepn H w1 E1. apply harvest_ok in E1. stepn H c Ec. apply unpack_config_ok in Ec.
  stepg H G2. stepg H G3. stepg H G4. stepg H G5. stepn H t Et. stepg H G6.
  stepn H w3 E3. apply sync_effective_ok in H. rewrite LIM in H.
  unfold process_slash_for_delegation in E3. stepg E3 G7. stepg E3 G8. stepn E3 d Ed. cbv zeta in E3.
  stepn E3 s Es. apply csub_ok in Es as [_ ->].
  destruct (harvested_cfg _ _ _ _ _ _ _ _ _ _ _ E1 (proj2 CA) Ec) as (V1 & _ & V3 & _).
  pose proof E1 as E1'. rewrite EV in E1'.
  destruct (harvested_needs _ _ _ _ _ _ _ _ WF SO BE E1') as (d0 & D0 & ST). exists d0. split; [auto|].
  destruct (harvested_del _ _ _ _ _ _ _ _ _ _ _ E1 D0 Ed) as (A1 & _).
  pose proof (keeps_harvested _ _ _ _ _ _ _ _ _ E1) as K1.
  apply unpack_token_ok in Et.
  constructor; auto.
  - destruct H. eapply cap_from; [apply (wf_dat _ _ WF)|eauto].
  - rewrite <- V3. auto.
  - split; [congruence|]. split; [auto|]. exists t. split; [|auto]. exact (keeps_dat _ _ _ (DToken t) K1 I Et).
  - intros P. rewrite <- A1 in *. destruct (N.ltb_spec 0 (N.min n (staked d))) as [L|L]; [|lia].
    stepn E3 m Em. stepn E3 u C. apply burn_needs in E3 as (M & tt & U & S1 & S2).
    assert (keeps w (put_del w1 (sl_stake a) (set_staked d (staked d - N.min n (staked d))))) as K
      by (eapply keeps_trans; [eauto|apply keeps_put]).
    split; [eapply mint_keeps; eauto|]. exists tt. split; [eapply usable_keeps; eauto|auto].
Qed.

(** ** Moving, overriding, harvesting *)
Lemma del_val v d : del_of (DVal v) = Ok d -> d = v_del v. Proof. simpl. congruence. Qed.
Lemma del_sol s d : del_of (DSol s) = Ok d -> d = s_del s. Proof. simpl. congruence. Qed.
Lemma harvested_sol e w ck vhr auth va sk kp w' k s' : harvested e w ck vhr auth va sk kp w' -> dat (get w' k) = DSol s' ->
  exists s, dat (get w k) = DSol s /\ s_lamports s' = s_lamports s /\ s_native s' = s_native s /\
    staked (s_del s') = staked (s_del s) /\ authority (s_del s') = authority (s_del s) /\ vote (s_del s') = vote (s_del s).
Proof.
  intros [] E. rewrite Hdat in E. destruct (ck =? k); [discriminate|].
  destruct (N.eqb_spec sk k) as [->|]; [|exists s'; auto 8]. destruct (dat (get w k)) as [| | |s| | | |] eqn:D; try discriminate.
  simpl in E, Hd. injection Hd as <-. injection E as <-. exists s. auto 8.
Qed.
Lemma harvested_val e w ck vhr auth va sk kp w' k v' : harvested e w ck vhr auth va sk kp w' -> dat (get w' k) = DVal v' ->
  exists v, dat (get w k) = DVal v /\ v_total v' = v_total v /\ authority (v_del v') = authority (v_del v).
Proof.
  intros [] E. rewrite Hdat in E. destruct (ck =? k); [discriminate|].
  destruct (N.eqb_spec sk k) as [->|]; [|exists v'; auto 8]. destruct (dat (get w k)) as [| |v| | | | |] eqn:D; try discriminate.
  simpl in E, Hd. injection Hd as <-. injection E as <-. exists v. auto.
Qed.
Lemma resynced_val w ck sk l w' k v' : resynced w ck sk l w' -> dat (get w' k) = DVal v' ->
  exists v, dat (get w k) = DVal v /\ authority (v_del v') = authority (v_del v).
Proof.
  intros [] E. rewrite Hdat in E. destruct (ck =? k); [discriminate|].
  destruct (N.eqb_spec sk k) as [->|]; [|exists v'; auto 8]. destruct (dat (get w k)) as [| |v| | | | |] eqn:D; try discriminate.
  simpl in E, Hd. injection Hd as <-. injection E as <-. exists v. auto.
Qed.
Lemma move_needs e cx a n w w' : inv e w -> sol_staker_move_tokens e cx a n w = Ok w' ->
  exists s t, needs_move e cx w a n s t.
Proof.
  intros IV H. pose proof (i_wf _ _ IV) as WF. apply sol_staker_move_tokens_ok in H. destruct H.
  destruct (harvested_sol _ _ _ _ _ _ _ _ _ _ _ H1 Ht0) as (t1 & T1 & L1 & N1 & S1 & A1 & _).
  destruct (harvested_sol _ _ _ _ _ _ _ _ _ _ _ H2 Ht) as (t2 & T2 & L2 & N2 & S2 & A2 & _).
  rewrite Ht0 in T2. injection T2 as <-.
  destruct (harvested_sol _ _ _ _ _ _ _ _ _ _ _ H2 Hs) as (s1 & X1 & L3 & N3 & S3 & A3 & _).
  destruct (harvested_sol _ _ _ _ _ _ _ _ _ _ _ H1 X1) as (s2 & X2 & L4 & N4 & S4 & A4 & _).
  rewrite Hs0 in X2. injection X2 as <-.
  assert (belongs e (mv_config a) (mv_source a) (dat (get w (mv_source a)))) as BS by (rewrite Hs0; auto).
  destruct (harvested_needs _ _ _ _ _ _ _ _ WF Hso BS H1) as (d & D & ST). rewrite Hs0 in D. apply del_sol in D as ->.
  assert (forall x y, dat (get w x) = DSol y -> forall l, calculate_maximum_stake (N.max (s_lamports y) 0) = Ok l -> cap (s_lamports y) < 2 ^ 64) as CAP.
  { intros x y E l EL. assert (cap_fits (DSol y)) as [_ CF].
    { apply (cap_from (DSol y) l); auto. rewrite <- E. apply (wf_dat _ _ WF). }
    apply CF. reflexivity. }
  exists s0, t1. constructor; auto.
  - exists c0. split; auto.
  - split; [split; auto|auto].
  - split; [split; auto|]. split; [|congruence]. unfold stake_of, stake_in. rewrite Hto, N.eqb_refl, T1.
    rewrite <- N1, <- Htk, N.eqb_refl. reflexivity.
  - congruence.
  - destruct H5, H6. split.
    + eapply CAP; eauto. rewrite <- L4, <- L3. eauto.
    + eapply CAP; eauto. rewrite <- L1, <- L2. eauto.
Qed.
Lemma override_needs e cx a n w w' : n < U64 -> inv e w -> validator_override e cx a n w = Ok w' ->
  exists c v, needs_override e cx w a n c v.
Proof.
  intros B IV H. pose proof (i_wf _ _ IV) as WF. apply validator_override_ok in H. destruct H.
  assert (belongs e (ov_config a) (ov_stake a) (dat (get w (ov_stake a)))) as BS by (rewrite Hv0; auto).
  destruct (harvested_needs _ _ _ _ _ _ _ _ WF Hso BS H1) as (d & D & ST). rewrite Hv0 in D. apply del_val in D as ->.
  destruct (harvested_val _ _ _ _ _ _ _ _ _ _ _ H1 Hv) as (v1 & V1 & T1 & _). rewrite Hv0 in V1. injection V1 as <-.
  exists c0, v0. constructor; auto.
  - split; auto.
  - split; [split; auto|auto].
  - destruct H3. rewrite T1 in Hm. pose proof (wf_dat _ (ov_stake a) WF) as W. rewrite Hv0 in W. destruct W as (W1 & W2 & W3).
    rewrite maxstake_eq in Hm by lia. unfold cap.
    destruct (N.ltb_spec (13 * N.max (v_total v0) n / 10) U64); [auto|discriminate].
Qed.
Lemma harvest_val_needs e cx a w w' : inv e w -> harvest_validator_rewards e cx a w = Ok w' ->
  exists c v, config_at e w (hv_config a) c /\ val_at e w (hv_stake a) v /\
    can_settle e w (hv_config a) (hv_stake a) (hv_authority a) (hv_vhr a) (v_del v).
Proof.
  intros IV H. pose proof (i_wf _ _ IV) as WF. apply harvest_validator_rewards_ok in H. destruct H.
  assert (belongs e (hv_config a) (hv_stake a) (dat (get w (hv_stake a)))) as BS by (rewrite Hv; auto).
  destruct (harvested_needs _ _ _ _ _ _ _ _ WF Hso BS H) as (d & D & ST). rewrite Hv in D. apply del_val in D as ->.
  exists c0, v. split; [split; auto|]. split; [split; auto|auto].
Qed.
Lemma harvest_sol_needs e cx a w w' : inv e w -> harvest_sol_staker_rewards e cx a w = Ok w' ->
  exists s vw, needs_harvest_sol e cx w a s vw.
Proof.
  intros IV H. pose proof (i_wf _ _ IV) as WF.
  assert (hs_view a = e_view e) as VW.
  { unfold harvest_sol_staker_rewards in H. stepn H c0 E0. stepn H s0 Es. stepg H G1. stepg H G2. cbv zeta in H. stepg H G3. stepg H G4. auto. }
  apply harvest_sol_staker_rewards_ok in H. destruct H.
  - assert (belongs e (hs_config a) (hs_stake a) (dat (get w (hs_stake a)))) as BS by (rewrite Hs; auto).
    destruct (harvested_needs _ _ _ _ _ _ _ _ WF Hso BS H1) as (d & D & ST). rewrite Hs in D. apply del_sol in D as ->.
    exists s, vw. constructor; auto; try (destruct Hsame; intros [|]; congruence).
    + exists c0. split; auto.
    + split; [split; auto|auto].
  - assert (belongs e (hs_config a) (hs_stake a) (dat (get w (hs_stake a)))) as BS by (rewrite Hs; auto).
    destruct (harvested_needs _ _ _ _ _ _ _ _ WF Hso BS H1) as (d & D & ST). rewrite Hs in D. apply del_sol in D as ->.
    destruct (harvested_sol _ _ _ _ _ _ _ _ _ _ _ H1 Hs1) as (s2 & X2 & _ & _ & _ & _ & VE). rewrite Hs in X2. injection X2 as <-.
    assert (forall w0 w0' f vk va, revalidated e w0 (hs_config a) (hs_vhr a) (e_vault e (hs_config a)) vk va f w0' ->
      (exists v, dat (get w0 vk) = DVal v /\ va = authority (v_del v)) /\
      (forall k, own (get w0' k) = own (get w0 k)) /\
      forall k v', dat (get w0' k) = DVal v' -> exists v, dat (get w0 k) = DVal v /\ authority (v_del v') = authority (v_del v)) as RV.
    { intros w0 w0' f vk va [v t u1 u2 R1 Rv Rf -> R3]. split; [|split].
      - destruct (harvested_val _ _ _ _ _ _ _ _ _ _ _ R1 Rv) as (v1 & V1 & _). exists v1. split; [auto|].
        destruct R1. rewrite V1 in Hd. apply del_val in Hd as ->. auto.
      - intros k. destruct R1, R3. rewrite Ho0. ws. auto.
      - intros k v' E. destruct (resynced_val _ _ _ _ _ _ _ R3 E) as (v3 & V3 & A3). wsi V3.
        destruct (N.eqb_spec vk k) as [<-|].
        + injection V3 as <-. destruct (harvested_val _ _ _ _ _ _ _ _ _ _ _ R1 Rv) as (v1 & V1 & _ & A1). exists v1.
          split; [auto|]. simpl in A3. congruence.
        + destruct (harvested_val _ _ _ _ _ _ _ _ _ _ _ R1 V3) as (v1 & V1 & _ & A1). exists v1. split; [auto|congruence]. }
    exists s, vw. constructor; auto.
    + exists c0. split; auto.
    + split; [split; auto|auto].
    + intros _. eauto.
    + intros _ NZ. destruct H2; [|congruence]. split; [congruence|].
      destruct (RV _ _ _ _ _ H) as ((v & V & A) & _).
      destruct (harvested_val _ _ _ _ _ _ _ _ _ _ _ H1 V) as (v1 & V1 & _ & A1). exists v1.
      split; [|congruence]. split; [|auto]. destruct H1. congruence.
    + intros _ NZ.
      assert ((forall k, own (get w2 k) = own (get w k)) /\
        forall k v', dat (get w2 k) = DVal v' -> exists v, dat (get w k) = DVal v /\ authority (v_del v') = authority (v_del v)) as [O2 V2].
      { assert (forall k v', dat (get w1 k) = DVal v' -> exists v, dat (get w k) = DVal v /\ authority (v_del v') = authority (v_del v)) as V1.
        { intros k v' E. destruct (harvested_val _ _ _ _ _ _ _ _ _ _ _ H1 E) as (v1 & Q1 & _ & Q2). eauto. }
        destruct H2 as [Q1 Q2 Q3 Q4|Q1 Q2 ->]; [|destruct H1; auto].
        destruct (RV _ _ _ _ _ Q4) as (_ & R1 & R2). split; [intros k; rewrite R1; destruct H1; auto|].
        intros k v' E. destruct (R2 k v' E) as (v1 & Y1 & Y2). destruct (V1 k v1 Y1) as (v0 & Z1 & Z2). exists v0. split; congruence. }
      destruct H3; [|split; [auto|intros OO; congruence]|congruence].
      split; [auto|]. intros OO. destruct (RV _ _ _ _ _ H) as ((v & V & A) & _).
      destruct (V2 _ _ V) as (v0 & Z1 & Z2). exists v0. split; [split; auto|congruence].
Qed.
Lemma pool_reward_needs acc last n r : pool_reward acc last n = Ok r -> since acc last * n < U128 /\ r = since acc last * n / 10 ^ 18.
Proof.
  intros H. split; [|now apply pool_reward_eq]. unfold pool_reward in H. rewrite since_wsub in H.
  destruct (N.eqb_spec (since acc last) 0) as [->|]; [reflexivity|].
  destruct (N.ltb_spec (since acc last * n) U128); [auto|discriminate].
Qed.
Lemma harvest_holder_needs e cx a w w' : env_ok e -> inv e w -> harvest_holder_rewards e cx a w = Ok w' ->
  exists c, needs_harvest_holder e cx w a c.
Proof.
  intros OK IV H. pose proof (i_wf _ _ IV) as WF.
  assert (exists c0 t, config_at e w (hh_config a) c0 /\ hh_vault a = cfg_vault c0 /\ dat (get w (hh_vault a)) = DToken t /\ t_mint t = hh_mint a /\
    exists w1 w2, synced_cfg w (hh_config a) w1 /\ rewards_harvest e (with_pda cx (hh_vault_pda a)) w1 (hh_pool a) (hh_ptok a) (hh_vhr a) (hh_mint a)
              (hh_vault_pda a) (c_pool_acc cx mod U128) = Ok w2 /\ e_rent e (data_len (dat (get w2 (hh_vault_pda a)))) <= lam (get w2 (hh_vault_pda a)) /\
    (lam (get w2 (hh_vault_pda a)) - e_rent e (data_len (dat (get w2 (hh_vault_pda a)))) = 0 \/ own (get w2 (hh_vault_pda a)) = e_prog e) /\
    hh_vault_pda a = e_vault e (hh_config a)) as (c0 & t & CA & VA & VT & VM & w1 & w2 & H1 & H2 & HM & HO & VE).
  { unfold harvest_holder_rewards in H. stepn H c0 E0. apply load_config_ok in E0 as [O0 E0]. stepg H G1. stepn H t Et. stepg H G2. stepn H vs Ev.
    destruct (e_create_vault e (hh_config a) (cfg_bump c0)) as [vs'|] eqn:EV; [|discriminate].
    injection Ev as ->. stepg H G3. subst vs. stepg H G4. stepg H G5.
    stepn H w1 E1. apply sync_config_lamports_ok in E1. stepn H w2 E2. stepn H w3 E3. apply unpack_token_ok in Et.
    exists c0, t. split; [split; auto|]. do 3 (split; [auto|]). exists w1, w2. split; [auto|]. split; [auto|].
    unfold transfer_excess in E3. cbv zeta in E3. stepg E3 Ex. stepg E3 Ey. split; [auto|].
    split; [apply orb_true_iff in Ey as [Ey|Ey]; b2p Ey; auto|].
    eapply vault_auth_eq; eauto using i_sane; split; auto. }
  assert (pool_accounts e w1 (hh_pool a) (hh_ptok a) (hh_vhr a) (hh_mint a)) as PA.
  { unfold rewards_harvest in H2. stepn H2 h EH.
    apply rewards_checked_ok in EH as (P1 & P2 & (p & P3 & P4 & P5 & P6) & _ & P7 & P8 & _).
    split; [auto|]. do 2 (split; [auto|]). exists p. auto. }
  assert (keeps w w1) as K by (destruct H1; subst; apply keeps_setd; simpl; auto).
  apply rewards_harvest_ok in H2. destruct H2.
  assert (dat (get w (hh_vhr a)) = DHolder h) as DH by exact (keeps_dat _ _ _ (DHolder h) K I Hh).
  apply pool_reward_needs in Hr as [B1 ->].
  destruct (sane_cfg _ _ (i_sane _ _ IV) _ _ CA) as (NP & _ & _ & VO & VD). rewrite <- VE in VO, VD.
  assert (deposit e w (hh_config a) = h_deposited h /\ holder_acc e w (hh_config a) = h_last h) as [EQ1 EQ2].
  { unfold deposit, holder_acc. rewrite <- VE, <- Hv, DH. auto. }
  assert (hh_config a <> hh_vault_pda a) as NC by (intros EE; apply NP; rewrite EE, VE; apply pda_vault).
  assert (forall k, lam (get w1 k) = lam (get w k)) as L1 by (destruct H1; subst; intros k; now ws).
  assert (forall k, own (get w1 k) = own (get w k)) as O1 by (destruct H1; subst; intros k; now ws).
  assert (own (get w2 (hh_vault_pda a)) = own (get w1 (hh_vault_pda a))) as O2 by auto.
  assert (dat (get w2 (hh_vault_pda a)) = DRaw []) as D2.
  { rewrite Hdat. destruct (N.eqb_spec (hh_vhr a) (hh_vault_pda a)) as [E|]; [congruence|].
    destruct H1 as [cc rpt ? ? ? ->]. ws. destruct (N.eqb_spec (hh_config a) (hh_vault_pda a)); congruence. }
  assert (lam (get w2 (hh_vault_pda a)) = lam (get w (hh_vault_pda a)) +
    since (c_pool_acc cx mod U128) (h_last h) * h_deposited h / 10 ^ 18) as L2.
  { rewrite Hl. unfold pay_lam. rewrite N.eqb_refl. destruct (N.eqb_spec (hh_pool a) (hh_vault_pda a)) as [E|].
    { exfalso. destruct PA as (_ & PO & _). rewrite E, O1 in PO. destruct (prog_ids _ OK) as (_ & _ & P & _ & _ & _ & _ & P0).
      destruct VO; congruence. }
    rewrite L1. revert HM. clear. generalize (since (c_pool_acc cx mod U128) (h_last h) * h_deposited h / 10 ^ 18).
    intros r _. destruct (N.eqb_spec r 0); lia. }
  exists c0. constructor; auto.
  - split; [auto|]. split; [auto|]. eauto.
  - split; [congruence|eauto].
  - eapply pool_keeps; eauto.
  - unfold pool_owes. rewrite EQ1, EQ2. split; [exact B1|]. intros NZ. unfold pool_available in Hav. rewrite L1 in Hav.
    change (2 ^ 128) with U128 in *. revert NZ Hav. clear.
    generalize (since (c_pool_acc cx mod U128) (h_last h) * h_deposited h / 10 ^ 18). intros r NZ Hav. lia.
  - unfold pool_owes. rewrite EQ1, EQ2. change (2 ^ 128) with U128. rewrite D2, L2 in HM. exact HM.
  - unfold pool_owes. rewrite EQ1, EQ2. change (2 ^ 128) with U128. rewrite D2, L2 in *. destruct HO as [HO|HO].
    + right. change (data_len (DRaw [])) with 0 in *. revert HM HO. clear.
      generalize (since (c_pool_acc cx mod U128) (h_last h) * h_deposited h / 10 ^ 18). intros; lia.
    + left. rewrite O2, O1 in HO. exact HO.
Qed.

Lemma handler_needs e cx c w w' : env_ok e -> wf_call c -> inv e w -> handler e cx c w = Ok w' -> needs e cx w c.
Proof.
  intros OK WC IV H. destruct c; simpl in H |- *; auto.
  - unfold validator_stake_tokens in H. stepn H c0 E0. apply load_config_ok in E0 as [C1 C2].
    stepn H v Ev. apply load_val_ok in Ev as (V1 & V2 & V3).
    destruct (stake_needs e cx a false amount w w' c0) as (d & D & N1); auto; [apply IV|split; auto|rewrite V2; exact V3|].
    rewrite V2 in D. apply del_val in D as ->. exists c0, v. split; [split; auto|auto].
  - eapply harvest_holder_needs; eauto.
  - eapply harvest_val_needs; eauto.
  - unfold slash_validator_stake in H. stepn H c0 E0. apply load_config_ok in E0 as [C1 C2].
    stepn H v Ev. apply load_val_ok in Ev as (V1 & V2 & V3).
    destruct (slash_needs e cx a c0 (v_total v) (v_min v) amount w w') as (d & D & N1); auto; [split; auto|rewrite V2; exact V3|now rewrite V2|].
    rewrite V2 in D. apply del_val in D as ->. exists c0, v. split; [split; auto|auto].
  - unfold sol_staker_stake_tokens in H. stepn H c0 E0. apply load_config_ok in E0 as [C1 C2].
    stepn H v Ev. apply load_sol_ok in Ev as (V1 & V2 & V3).
    destruct (stake_needs e cx a true amount w w' c0) as (d & D & N1); auto; [apply IV|split; auto|rewrite V2; exact V3|].
    rewrite V2 in D. apply del_sol in D as ->. exists c0, v. split; [split; auto|auto].
  - eapply harvest_sol_needs; eauto.
  - eapply unstake_needs; eauto.
  - unfold slash_sol_staker_stake in H. stepn H c0 E0. apply load_config_ok in E0 as [C1 C2].
    stepn H v Ev. apply load_sol_ok in Ev as (V1 & V2 & V3).
    destruct (slash_needs e cx a c0 (s_lamports v) 0 amount w w') as (d & D & N1); auto; [split; auto|rewrite V2; exact V3|now rewrite V2|].
    rewrite V2 in D. apply del_sol in D as ->. exists c0, v. split; [split; auto|auto].
  - eapply move_needs; eauto.
  - eapply override_needs; eauto.
Qed.
