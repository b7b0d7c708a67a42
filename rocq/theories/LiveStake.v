From Verif Require Import Base Types Layout Math External Processor Runtime History Spec SpecReward SpecLive
  WorldLemmas Effects Handlers Evolve Sane Wf Totals Arith Nets Caps Stakers Deposits Inv Life Rewards Collect Progress Solvency Live LiveTokens.

(** ** Harvest and what it leaves *)
Record prefix (e : env) (ck sk auth : pubkey) (w : world) (c : config) (d : delegation) (w1 : world) (c1 : config) (d1 : delegation)
    : Prop := {
  px_gone : gone e ck sk auth None [ck; sk; auth] w w1;
  px_cfg : dat (get w1 ck) = DConfig c1;
  px_c : exists a l, c1 = set_cfg_last (set_cfg_acc c a) l;
  px_del : del_of (dat (get w1 sk)) = Ok d1;
  px_d : exists h a, d1 = set_lasts d h a /\ dat (get w1 sk) = upd_del (dat (get w sk)) d1;
  px_stake : stake_of e w1 ck sk = Some d1;
  px_room : effective d <= cfg_effective c /\ cfg_effective c - effective d + staked d <= sum_of e w ck staked;
}.
Lemma prefix_goes e ck w c sk d auth vhr : env_ok e -> ready e ck w -> config_at e w ck c ->
  stake_of e w ck sk = Some d -> auth = authority d -> auth <> ck ->
  vhr = e_holder e (e_vault e ck) -> affordable e w ck (fun k => k = sk) ->
  exists w1 c1 d1, harvest e w ck vhr auth (e_vault e ck) sk None = Ok w1 /\ prefix e ck sk auth w c d w1 c1 d1.
Proof.
  intros OK RY C S AU NA VH (ks & ND & KS & PAY). pose proof (sum_over_in (pending e w ck) _ _ (KS sk eq_refl)) as PSK.
  destruct (harvest_goes e ck w c sk d auth vhr None OK RY C S AU NA ltac:(discriminate) VH) as
    (w1 & R1 & H1 & G1 & ac & ho & D1 & a' & l' & C1); [lia|].
  exists w1, (set_cfg_last (set_cfg_acc c a') l'), (set_lasts d ho ac). split; [auto|].
  pose proof S as S'. apply stake_of_some in S' as (SO & SD & SB).
  assert (del_of (dat (get w1 sk)) = Ok (set_lasts d ho ac)) as SD1 by (rewrite D1; eapply del_of_upd'; eauto).
  split; eauto.
  - apply stake_of_intro; [rewrite (go_own _ _ _ _ _ _ _ _ G1); auto|auto|].
    refine (same_id_belongs _ _ _ _ _ _ SB). rewrite D1. apply (same_id_upd _ _ _ SD); reflexivity.
  - exact (ready_sum _ _ _ _ _ _ RY C S).
Qed.

(** A delegation written back and re-capped. *)
Lemma resize_goes e ck sk auth w c d w1 c1 d1 dn l lmin : prefix e ck sk auth w c d w1 c1 d1 -> sk <> ck ->
  effective dn = effective d1 -> cfg_effective c - effective d + staked dn < U64 ->
  N.max l lmin < U64 -> cap (N.max l lmin) < U64 ->
  exists w3, sync_effective (put_del w1 sk dn) ck sk l lmin = Ok w3 /\
    total_lamports w3 = total_lamports w /\ (forall k, own (get w3 k) = own (get w k)) /\
    (forall k, k <> ck -> k <> sk -> dat (get w3 k) = dat (get w k)) /\
    (forall k, lam (get w3 k) = lam (get w1 k)) /\ touches [ck; sk] w1 w3.
Proof.
  intros [G1 C1 (ca & cl & CE) SD1 (dh & da & DE & _) S1 [RM1 RM2]] NSC EN RM LB1 LB2.
  set (w2 := put_del w1 sk dn).
  assert (dat (get w2 ck) = DConfig c1) as C2.
  { unfold w2, put_del. ws. destruct (N.eqb_spec sk ck); [congruence|auto]. }
  assert (del_of (dat (get w2 sk)) = Ok dn) as SD2.
  { unfold w2, put_del. ws. rewrite N.eqb_refl. eapply del_of_upd'; eauto. }
  destruct (sync_runs w2 ck sk l lmin c1 dn) as [w3 R3]; auto.
  { rewrite EN, DE, CE. cbn. auto. } { rewrite EN, DE, CE. cbn. auto. }
  pose proof (sync_effective_ok _ _ _ _ _ _ R3) as Y3. exists w3. split; [auto|].
  split; [|split; [|split; [|split]]].
  - rewrite (proj1 (frozen_resync _ _ _ _ _ Y3)). unfold w2, put_del. rewrite total_setd. apply (go_tot _ _ _ _ _ _ _ _ G1).
  - intros k. destruct Y3. rewrite Ho. unfold w2, put_del. ws. apply (go_own _ _ _ _ _ _ _ _ G1).
  - intros k N1 N2. destruct Y3. rewrite Hdat. keys; try congruence. unfold w2, put_del. ws. keys; try congruence.
    now apply (go_dat _ _ _ _ _ _ _ _ G1).
  - intros k. destruct Y3. rewrite Hlams. unfold w2, put_del. now ws.
  - apply touches_trans with w2; [refine (touches_incl _ _ _ _ (touches_put_del _ _ _) _); intros x; simpl; tauto|].
    exact (touches_resync _ _ _ _ _ Y3).
Qed.

Lemma deposit_runs e sig w pool ptok vhr tacc mnt owner tp n acc h t p m :
  pool = e_pool e mnt -> own (get w pool) = e_rewards e -> vhr = e_holder e owner -> own (get w vhr) = e_rewards e ->
  dat (get w vhr) = DHolder h -> sig owner = true -> tp = e_token e ->
  own (get w mnt) = e_token e -> dat (get w mnt) = DMint m ->
  liquid e w tacc mnt owner t -> liquid e w ptok mnt pool p -> tacc <> ptok ->
  n <= t_amount t -> t_amount p + n < U64 -> h_deposited h + n < U64 ->
  since acc (h_last h) * h_deposited h < U128 ->
  since acc (h_last h) * h_deposited h / 10 ^ 18 + e_rent e 64 <= lam (get w pool) ->
  lam (get w pool) < U64 -> total_lamports w < U64 ->
  exists w', rewards_deposit e sig w pool ptok vhr tacc mnt owner tp n acc = Ok w' /\
    (forall k, k <> vhr -> k <> tacc -> k <> ptok -> dat (get w' k) = dat (get w k)) /\
    (forall k, own (get w' k) = own (get w k)) /\
    exists r, r <= lam (get w pool) /\ (forall k, lam (get w' k) = pay_lam w pool owner r k).
Proof.
  intros PE PO VE VO Hh SG TP MO MD LT LP NE NT RM HB R1 R2 WF TT. unfold rewards_deposit.
  destruct LT as (To & Td & Tm & Tw & Tf & Tl) eqn:LTE. destruct LP as (Po & Pd & Pm & Pw & Pf & Pl) eqn:LPE. clear LTE LPE.
  unfold rewards_checked. rewrite require_true by (rewrite PE at 1; rewrite PO; now rewrite !N.eqb_refl).
  rewrite (token_at_runs _ _ _ _ Po Pd), bind_Ok. rewrite require_true by now rewrite Pw, Pm, !N.eqb_refl.
  rewrite require_true by auto. rewrite require_true by (rewrite VE at 1; rewrite VO; now rewrite !N.eqb_refl).
  rewrite Hh, bind_Ok. rewrite (token_at_runs _ _ _ _ To Td), bind_Ok. rewrite require_true by now rewrite Tw, Tm, !N.eqb_refl.
  rewrite require_true by now apply N.eqb_eq. rewrite require_true by now apply N.leb_le.
  assert (exists r, pool_reward acc (h_last h) (h_deposited h) = Ok r /\ r <= pool_available e w pool) as (r & Er & AV).
  { unfold pool_reward, pool_available. cbv zeta. rewrite since_wsub.
    destruct (since acc (h_last h) =? 0); [exists 0; split; [auto|lia]|].
    rewrite (proj2 (N.ltb_lt _ _) R1). change 1000000000000000000 with (10 ^ 18).
    rewrite (proj2 (N.ltb_lt _ _)) by lia. eexists. split; [reflexivity|]. lia. }
  rewrite Er, bind_Ok. rewrite require_true by now apply N.leb_le. rewrite require_true by now apply N.ltb_lt. cbv zeta.
  set (w1 := setd w vhr _).
  assert (vhr <> tacc) as N1 by congruence. assert (vhr <> ptok) as N2 by congruence. assert (vhr <> mnt) as N3 by congruence.
  assert (liquid e w1 ptok mnt pool p) as L1 by (apply liquid_setd; auto).
  assert (liquid e w1 tacc mnt owner t) as L2' by (apply liquid_setd; auto).
  pose proof (transfer_runs e sig w1 tacc mnt ptok owner n t p m pool L2' L1 NE) as TR.
  rewrite TR; [|unfold w1; ws; auto| |auto..]; clear TR.
  2:{ unfold w1. ws. destruct (N.eqb_spec vhr mnt); [congruence|auto]. }
  rewrite bind_Ok. set (w2 := setd (setd w1 tacc _) ptok _).
  assert (forall k, lam (get w2 k) = lam (get w k)) as L2 by (intros k; unfold w2, w1; now ws).
  assert (r <= lam (get w pool)) as RL by (unfold pool_available in AV; lia).
  destruct (pool_pay_runs w2 pool owner r) as [w' P]; [now rewrite L2|rewrite (total_same w w2); auto|].
  exists w'. split; [exact P|]. apply pool_pay_ok in P as (Q0 & Q1 & Q2 & Q3 & Q4).
  assert (forall k, own (get w2 k) = own (get w k)) as O2 by (intros k; unfold w2, w1; now ws).
  split; [|split].
  - intros k K1 K2 K3. rewrite Q2. unfold w2, w1. ws. keys; congruence.
  - intros k. now rewrite Q1, O2.
  - exists r. split; [auto|]. intros k. rewrite Q3. unfold pay_lam. now rewrite !L2.
Qed.

Lemma stake_incl1 a : incl [st_source a; st_mint a; st_vault a; st_source_auth a] (st_source_auth a :: stake_cpi a).
Proof. intros k. unfold stake_cpi. simpl. tauto. Qed.
Lemma stake_incl2 a : incl ([st_source a; st_mint a; st_vault a; st_source_auth a] ++
  [st_pool a; st_ptok a; st_vhr a; st_vault a; st_mint a; st_vault_pda a; st_tokprog a]) (st_source_auth a :: stake_cpi a).
Proof. intros k. unfold stake_cpi. simpl. tauto. Qed.
Lemma stake_in_cpi a : In (st_source a) (stake_cpi a) /\ In (st_mint a) (stake_cpi a) /\ In (st_vault a) (stake_cpi a) /\
  In (st_pool a) (stake_cpi a) /\ In (st_ptok a) (stake_cpi a) /\ In (st_vhr a) (stake_cpi a) /\ In (st_vault_pda a) (stake_cpi a).
Proof. unfold stake_cpi. simpl. tauto. Qed.

Lemma stake_goes e cx a n w c d ca : env_ok e -> inv e w -> settled_chain e w (st_config a) ->
  good_stake e cx a n w c d -> stake_call (dat (get w (st_stake a))) a n = Some ca ->
  pending e w (st_config a) (st_stake a) = 0 \/ st_source_auth a <> st_authority a ->
  exists w', run e cx ca w = Ok w'.
Proof.
  intros OK I [[h HH] TT] G CALL PA. destruct G as [C S (AU & NAC & NAI) (VE & PDA) (VHR & VHO) (PE & PO) (MO & m & MD) (TP & TPO)
    (SG & SGO) (st & LS & NST & NSV & NSP) (vt & LV & RV) (pt & LP & RP) (RW1 & RW2 & RW3) N0 CAPS PAY WR].
  remember (st_config a) as ck eqn:CK. remember (st_stake a) as sk eqn:SKE.
  pose proof (ready_inv _ _ _ _ _ I C HH TT) as RY.
  destruct (prefix_goes e ck w c sk d (st_authority a) (st_vhr a) OK RY C S AU NAC VHR PAY) as (w1 & c1 & d1 & R1 & PX).
  pose proof PX as [G1 C1 (ca1 & cl1 & CE1) SD1 (dh1 & da1 & DE1 & D1) S1 [RM1 RM2]].
  pose proof S as S'. apply stake_of_some in S' as (SO & SD & SB).
  destruct (sane_cfg _ _ (i_sane _ _ I) _ _ C) as (NPC & _ & _ & VPO & VPD).
  assert (sk <> ck) as NSC. { intros ->. rewrite (proj2 C) in SD. discriminate. }
  destruct (load_any_runs _ _ _ _ _ S) as (l & lmin & LA & LC).
  pose proof (wf_dat _ sk (i_wf _ _ I)) as WD.
  destruct (limits_fit _ WD CAPS _ _ LC) as [LB1 LB2].
  assert (sum_of e w ck staked <= h_deposited h /\ deposit e w ck = h_deposited h) as (SB2 & DE).
  { pose proof (i_backed _ _ I ck) as B. unfold deposit in *. rewrite HH in *. auto. }
  assert (holder_acc e w ck = h_last h) as HA by (unfold holder_acc; now rewrite HH).
  assert (h_deposited h + n < U64) as HB by (rewrite <- DE; auto).
  pose proof (sum_of_ge e w ck staked sk d S) as SGE.
  assert (staked d1 = staked d /\ effective d1 = effective d) as [SE EE] by (rewrite DE1; auto).
  assert (staked d1 + n < U64) as ROOM by (clear - SE SGE SB2 HB; lia).
  set (dn := set_staked d1 (staked d1 + n)).
  destruct (resize_goes e ck sk _ w c d w1 c1 d1 dn l lmin PX NSC) as (w3 & R3 & T3 & O3 & DA3 & L3 & TO3); auto.
  { unfold dn. cbn. lia. }
  pose proof (go_touch _ _ _ _ _ _ _ _ G1) as TO1.
  (* none of the accounts handed over is the config or the stake *)
  assert (own (get w ck) = e_prog e /\ own (get w sk) = e_prog e) as [OC OS] by (split; [apply C|auto]).
  assert (e_token e <> e_prog e /\ e_rewards e <> e_prog e) as [NTP NRP].
  { destruct (prog_ids _ OK) as (_ & A & B & _). auto. }
  assert (e_vault e ck <> ck) as NVC.
  { intros E. rewrite E in VPD. destruct C; congruence. }
  assert (e_vault e ck <> sk) as NVS.
  { intros E. rewrite E in VPD. rewrite VPD in SD. discriminate. }
  assert (forall k, In k (st_source_auth a :: stake_cpi a) -> k <> ck /\ k <> sk) as NIN.
  { intros k IK. assert (own (get w k) <> e_prog e \/ k = e_vault e ck) as [NO| ->]; [|split; congruence|auto].
    unfold stake_cpi in IK. simpl in IK.
    destruct LS as [X1 _], LV as [X2 _], LP as [X3 _].
    destruct IK as [<-|[<-|[<-|[<-|[<-|[<-|[<-|[<-|[<-|[]]]]]]]]]]; auto; left; congruence. }
  assert (forall k, In k (st_source_auth a :: stake_cpi a) -> lam (get w3 k) = lam (get w k)) as L3'.
  { intros k IK. destruct (NIN _ IK) as [K1 K2]. rewrite L3. destruct (N.eq_dec k (st_authority a)) as [->|NA].
    - destruct IK as [E|IK]; [|contradiction]. destruct PA as [PZ|PA]; [|congruence].
      rewrite (go_gain _ _ _ _ _ _ _ _ G1 eq_refl), PZ. lia.
    - rewrite TO1; auto. simpl. intros [E|[E|[E|[]]]]; congruence. }
  assert (forall k m o t, In k (stake_cpi a) -> liquid e w k m o t -> liquid e w3 k m o t) as LQ.
  { intros k m0 o0 t0 IK LQ. destruct (NIN _ (or_intror IK)). eapply liquid_same; eauto. }
  destruct (stake_in_cpi a) as (I1 & I2 & I3 & I4 & I5 & I6 & I7).
  assert (st_vault a <> st_ptok a) as NVP.
  { intros E. destruct LV as (_ & X1 & _ & X2 & _), LP as (_ & X3 & _ & X4 & _). rewrite E, X3 in X1. injection X1 as <-.
    rewrite X2, PDA, PE in X4. eapply (ok_pool_pda e OK). right. right. left. eexists. symmetry. exact X4. }
  assert (forall k, In k (stake_cpi a) -> dat (get w3 k) = dat (get w k)) as DA3'.
  { intros k IK. destruct (NIN _ (or_intror IK)). auto. }
  (* the transfer into the vault *)
  set (w4 := setd (setd w3 (st_source a) (DToken (set_t_amount st (t_amount st - n)))) (st_vault a)
     (DToken (set_t_amount vt (t_amount vt + n)))).
  assert (token_transfer e (signed cx) w3 (st_source a) (st_mint a) (st_vault a) (st_source_auth a) n = Ok w4) as R4.
  { apply (transfer_runs e (signed cx) w3 (st_source a) (st_mint a) (st_vault a) (st_source_auth a) n st vt m (st_vault_pda a)); auto.
    - now rewrite O3.
    - rewrite DA3'; auto. }
  assert (forall k, own (get w4 k) = own (get w k)) as O4 by (intros k; unfold w4; ws; auto).
  assert (forall k, lam (get w4 k) = lam (get w3 k)) as L4 by (intros k; unfold w4; now ws).
  assert (forall k, k <> st_source a -> k <> st_vault a -> dat (get w4 k) = dat (get w3 k)) as DA4.
  { intros k K1 K2. unfold w4. ws. keys; congruence. }
  assert (total_lamports w4 = total_lamports w) as T4 by (unfold w4; rewrite !total_setd; auto).
  assert (st_vhr a <> st_source a /\ st_vhr a <> st_vault a) as [NH1 NH2].
  { split; intros E; [destruct LS as (_ & X & _)|destruct LV as (_ & X & _)]; rewrite <- E, VHR, HH in X; discriminate. }
  assert (st_mint a <> st_source a /\ st_mint a <> st_vault a) as [NM1 NM2].
  { split; intros E; [destruct LS as (_ & X & _)|destruct LV as (_ & X & _)]; rewrite <- E, MD in X; discriminate. }
  destruct (deposit_runs e (with_pda cx (e_vault e ck)) w4 (st_pool a) (st_ptok a) (st_vhr a) (st_vault a) (st_mint a)
    (st_vault_pda a) (st_tokprog a) n (c_pool_acc cx mod U128) h (set_t_amount vt (t_amount vt + n)) pt m)
    as (w5 & R5 & DA5 & O5 & r & RL & L5); auto.
  { now rewrite O4. } { now rewrite VHR, PDA. } { now rewrite O4. }
  { rewrite DA4 by auto. rewrite DA3' by auto. now rewrite VHR. }
  { unfold with_pda. rewrite PDA, N.eqb_refl. apply orb_true_r. }
  { now rewrite O4. } { rewrite DA4, DA3' by auto. auto. }
  { destruct LV as (X1 & X2 & X3). unfold liquid. rewrite O4. split; [auto|]. split; [|exact X3].
    unfold w4. ws. now rewrite N.eqb_refl. }
  { eapply liquid_same; [apply (LQ _ _ _ _ I5 LP)|now rewrite O4, O3|apply DA4; auto]. }
  { cbn. lia. }
  { rewrite <- DE, <- HA. auto. }
  { rewrite <- DE, <- HA. rewrite L4, L3' by (right; auto). auto. }
  { rewrite L4, L3' by (right; auto). exact (wf_lam _ _ (i_wf _ _ I)). }
  { now rewrite T4. }
  assert (forall co, stake_tokens e cx a co n w = Ok w5) as HND.
  { intros co. unfold stake_tokens. rewrite <- CK, <- SKE. cbv zeta. rewrite R1, bind_Ok, C1. cbn [unpack_config]. rewrite bind_Ok.
    rewrite require_true by now apply N.eqb_eq. rewrite require_true by (apply N.eqb_eq; rewrite CE1; exact VE).
    assert (forall k, In k (stake_cpi a) -> dat (get w1 k) = dat (get w k)) as DA1.
    { intros k IK. destruct (NIN _ (or_intror IK)). now apply (go_dat _ _ _ _ _ _ _ _ G1). }
    destruct LV as (X1 & X2 & X3 & X4 & _). rewrite DA1, X2 by auto. cbn [unpack_token]. rewrite bind_Ok.
    rewrite require_true by (rewrite X4, N.eqb_refl; apply orb_true_r). rewrite require_true by now apply N.eqb_eq.
    rewrite DA1, MD by auto. cbn [unpack_mint]. rewrite bind_Ok. rewrite require_true by now apply N.ltb_lt.
    rewrite SD1, bind_Ok. rewrite (add64_lt _ _ ROOM). rewrite bind_Ok. fold dn.
    assert (match dat (get (put_del w1 sk dn) sk) with DVal v => (v_total v, v_min v) | DSol s => (s_lamports s, 0) | _ => (0, 0) end
      = (l, lmin)) as LM.
    { unfold put_del. ws. rewrite N.eqb_refl, D1.
      destruct LC as [(v & E & -> & ->)|(s & E & -> & ->)]; rewrite E; reflexivity. }
    rewrite LM, R3, bind_Ok.
    rewrite cpi_runs.
    2:{ intros IK. apply stake_incl1 in IK. now destruct (NIN _ IK). }
    2:{ intros IK. apply stake_incl1 in IK. now destruct (NIN _ IK). }
    2:{ apply lam_sum_same. intros k IK. apply L3', stake_incl1, IK. }
    rewrite R4, bind_Ok. rewrite cpi_runs.
    2:{ intros IK. apply stake_incl2 in IK. now destruct (NIN _ IK). }
    2:{ intros IK. apply stake_incl2 in IK. now destruct (NIN _ IK). }
    2:{ apply lam_sum_same. intros k IK. rewrite L4. apply L3', stake_incl2, IK. }
    exact R5. }
  exists w5. unfold run.
  assert (handler e cx ca w = Ok w5) as HD.
  { assert (load_config e w ck = Ok c) as LC1.
    { unfold load_config. rewrite require_true by (apply N.eqb_eq; apply C). now rewrite (proj2 C). }
    apply del_of_ok in SD as [(v & E & Ed)|(s & E & Ed)]; rewrite E in CALL; cbn in CALL; injection CALL as <-; unfold handler;
      rewrite E in SB; simpl in SB.
    - unfold validator_stake_tokens. rewrite <- CK, <- SKE, LC1, bind_Ok. unfold load_val.
      rewrite require_true by now apply N.eqb_eq. rewrite E. cbn [unpack_val]. rewrite bind_Ok.
      rewrite require_true by (now apply N.eqb_eq). rewrite bind_Ok. auto.
    - unfold sol_staker_stake_tokens. rewrite <- CK, <- SKE, LC1, bind_Ok. unfold load_sol.
      rewrite require_true by now apply N.eqb_eq. rewrite E. cbn [unpack_sol]. rewrite bind_Ok.
      rewrite require_true by (now apply N.eqb_eq). rewrite bind_Ok. auto. }
  rewrite HD, bind_Ok.
  rewrite (runtime_check_touches cx (ck :: sk :: st_authority a ::
    [st_source a; st_vault a; st_pool a; st_ptok a; st_vhr a; st_vault_pda a]) w w5); [reflexivity| | |auto].
  - intros k NI. simpl in NI. assert (get w1 k = get w k) as E1.
    { apply TO1. intros IK. apply NI. clear - IK. simpl in IK. tauto. }
    apply account_ext.
    + rewrite L5, pay_lam_other; [|intros E; apply NI; clear - E; subst k; tauto..]. rewrite L4, L3, E1. auto.
    + now rewrite O5, O4.
    + rewrite DA5, DA4, DA3; auto; intros E; apply NI; clear - E; subst k; tauto.
  - rewrite (total_pay w4 w5 _ _ _ RL L5). exact T4.
Qed.

(** ** Slashing *)
Lemma burn_runs e sig w src mnt auth n s m : liquid e w src mnt auth s -> own (get w mnt) = e_token e ->
  dat (get w mnt) = DMint m -> sig auth = true -> n <= t_amount s -> n <= m_supply m ->
  token_burn e sig w src mnt auth n =
    Ok (setd (setd w src (DToken (set_t_amount s (t_amount s - n)))) mnt (DMint (Mnt (m_supply m - n) (m_decimals m)))).
Proof.
  intros (So & Sd & Sm & Sw & Sf & Sl) Mo Md SG LE LM. unfold token_burn.
  rewrite (token_at_runs _ _ _ _ So Sd), bind_Ok, (mint_at_runs _ _ _ _ Mo Md), bind_Ok.
  rewrite require_true by now rewrite Sf. rewrite require_true by now apply N.leb_le. rewrite require_true by now apply N.eqb_eq.
  assert (token_authorise sig s auth n = Ok s) as TA.
  { unfold token_authorise. cbv zeta. rewrite Sw, N.eqb_refl, SG. cbn [andb]. rewrite require_true by auto.
    destruct (t_delegate s) as [x|]; auto. destruct (N.eqb_spec x auth); [congruence|auto]. }
  rewrite TA, bind_Ok. rewrite require_true by now apply N.leb_le. reflexivity.
Qed.

Lemma slash_goes e cx a n w c d t ca : env_ok e -> inv e w -> settled_chain e w (sl_config a) ->
  good_slash e cx a n w c d t -> slash_call (dat (get w (sl_stake a))) a n = Some ca ->
  N.min n (staked d) <= t_amount t -> exists w', run e cx ca w = Ok w'.
Proof.
  intros OK I [[h HH] TT] G CALL FUND. destruct G as [C S (AU & NAC & NAI) (SLE & SLN & SLS) (VE & PDA) VHR LV (MO & m & MD & MS) TP N0 CAPS PAY WR].
  remember (sl_config a) as ck eqn:CK. remember (sl_stake a) as sk eqn:SKE.
  pose proof (ready_inv _ _ _ _ _ I C HH TT) as RY.
  destruct (prefix_goes e ck w c sk d (sl_authority a) (sl_vhr a) OK RY C S AU NAC VHR PAY) as (w1 & c1 & d1 & R1 & PX).
  pose proof PX as [G1 C1 (ca1 & cl1 & CE1) SD1 (dh1 & da1 & DE1 & D1) S1 [RM1 RM2]].
  pose proof S as S'. apply stake_of_some in S' as (SO & SD & SB).
  destruct (sane_cfg _ _ (i_sane _ _ I) _ _ C) as (NPC & _ & BU & VPO & VPD).
  assert (sk <> ck) as NSC. { intros ->. rewrite (proj2 C) in SD. discriminate. }
  destruct (load_any_runs _ _ _ _ _ S) as (l & lmin & LA & LC).
  pose proof (wf_dat _ sk (i_wf _ _ I)) as WD.
  destruct (limits_fit _ WD CAPS _ _ LC) as [LB1 LB2].
  assert (staked d1 = staked d /\ effective d1 = effective d) as [SE EE] by (rewrite DE1; auto).
  remember (N.min n (staked d)) as x eqn:XE in *.
  assert (x <= staked d) as XL by (clear - XE; lia).
  set (dn := set_staked d1 (staked d1 - x)).
  assert (staked dn <= staked d) as SLE2 by (unfold dn; cbn; lia).
  assert (cfg_effective c - effective d + staked dn < U64) as ROOM by (pose proof (re_sum _ _ _ RY); clear - RM2 H SLE2; lia).
  assert (own (get w ck) = e_prog e /\ own (get w sk) = e_prog e) as [OC OS] by (split; [apply C|auto]).
  assert (e_token e <> e_prog e) as NTP by (destruct (prog_ids _ OK) as (_ & A & B & _); auto).
  assert (e_vault e ck <> ck) as NVC. { intros E. rewrite E in VPD. destruct C; congruence. }
  assert (e_vault e ck <> sk) as NVS. { intros E. rewrite E in VPD. rewrite VPD in SD. discriminate. }
  pose proof LV as (LV1 & LV2 & LV3 & LV4 & _).
  assert (sl_vault a <> ck /\ sl_vault a <> sk /\ sl_mint a <> ck /\ sl_mint a <> sk) as (K1 & K2 & K3 & K4)
    by (repeat split; congruence).
  assert (sl_mint a <> sl_vault a) as NMV by congruence.
  pose proof (go_touch _ _ _ _ _ _ _ _ G1) as TO1.
  assert (forall k, k <> ck -> k <> sk -> dat (get w1 k) = dat (get w k)) as DA1 by apply (go_dat _ _ _ _ _ _ _ _ G1).
  set (w2 := put_del w1 sk dn).
  assert (forall k, own (get w2 k) = own (get w k)) as O2.
  { intros k. unfold w2, put_del. ws. apply (go_own _ _ _ _ _ _ _ _ G1). }
  assert (forall k, k <> ck -> k <> sk -> dat (get w2 k) = dat (get w k)) as DA2.
  { intros k A B. unfold w2, put_del. ws. destruct (N.eqb_spec sk k); [congruence|auto]. }
  assert (forall k, lam (get w2 k) = lam (get w1 k)) as L2 by (intros k; unfold w2, put_del; now ws).
  assert (exists w3, (if 0 <? x then
      let* _ := unpack_mint (dat (get w2 (sl_mint a))) in
      let* _ := cpi_check w w2 [ck; sk] [sl_vault a; sl_mint a; sl_vault_auth a] in
      token_burn e (with_pda cx (sl_vault_auth a)) w2 (sl_vault a) (sl_mint a) (sl_vault_auth a) x
    else Ok w2) = Ok w3 /\ (forall k, own (get w3 k) = own (get w2 k)) /\ (forall k, lam (get w3 k) = lam (get w2 k)) /\
    (forall k, k <> sl_vault a -> k <> sl_mint a -> dat (get w3 k) = dat (get w2 k))) as (w3 & R3 & O3 & L3 & DA3).
  { destruct (0 <? x); [|exists w2; auto]. rewrite DA2, MD by auto. cbn [unpack_mint]. rewrite bind_Ok.
    rewrite cpi_runs.
    - rewrite (burn_runs _ _ _ _ _ _ _ t m).
      + eexists. split; [reflexivity|]. split; [intros k; now ws|]. split; [intros k; now ws|].
        intros k A B. ws. keys; congruence.
      + apply (liquid_same e w w2); auto.
      + now rewrite O2.
      + rewrite DA2; auto.
      + unfold with_pda. rewrite N.eqb_refl. apply orb_true_r.
      + auto.
      + auto.
    - simpl. rewrite PDA. intuition congruence.
    - simpl. rewrite PDA. intuition congruence.
    - apply lam_sum_same. intros k IK. rewrite L2, TO1; [auto|]. simpl. intros [E|[E|[E|[]]]].
      + rewrite <- E in IK. simpl in IK. rewrite PDA in IK. intuition congruence.
      + rewrite <- E in IK. simpl in IK. rewrite PDA in IK. intuition congruence.
      + rewrite <- E in IK. contradiction. }
  destruct (sync_runs w3 ck sk l lmin c1 dn) as [w4 R4].
  { rewrite DA3 by auto. unfold w2, put_del. ws. destruct (N.eqb_spec sk ck); [congruence|auto]. }
  { rewrite DA3 by auto. unfold w2, put_del. ws. rewrite N.eqb_refl. eapply del_of_upd'; eauto. }
  { unfold dn. rewrite CE1. cbn. rewrite EE. auto. }
  { replace (effective dn) with (effective d) by (unfold dn; cbn; auto).
    replace (cfg_effective c1) with (cfg_effective c) by now rewrite CE1. auto. }
  { auto. } { auto. }
  assert (slash_stake e cx a c l lmin n w = Ok w4) as HND.
  { unfold slash_stake. rewrite <- CK, <- SKE. rewrite BU, (ok_bump e OK), bind_Ok. rewrite require_true by now apply N.eqb_eq.
    rewrite PDA at 1. rewrite R1, bind_Ok, C1. cbn [unpack_config]. rewrite bind_Ok.
    assert (cfg_slash c1 = cfg_slash c /\ cfg_vault c1 = cfg_vault c) as [-> ->] by now rewrite CE1.
    rewrite require_true by (now apply negb_true_iff, N.eqb_neq). rewrite require_true by now apply N.eqb_eq.
    rewrite require_true by auto. rewrite require_true by now apply N.eqb_eq.
    rewrite DA1, LV2 by auto. cbn [unpack_token]. rewrite bind_Ok. rewrite require_true by now apply N.eqb_eq.
    unfold process_slash_for_delegation. rewrite <- CK, <- SKE.
    rewrite require_true by now apply N.eqb_eq. rewrite require_true by now apply N.ltb_lt.
    rewrite SD1, bind_Ok. cbv zeta. rewrite SE, <- XE. rewrite csub_le by auto. rewrite bind_Ok. rewrite <- SE. fold dn. fold w2.
    cbv zeta in R3. rewrite R3, bind_Ok. exact R4. }
  exists w4. unfold run.
  assert (handler e cx ca w = Ok w4) as HD.
  { assert (load_config e w ck = Ok c) as LC1.
    { unfold load_config. rewrite require_true by (apply N.eqb_eq; apply C). now rewrite (proj2 C). }
    apply del_of_ok in SD as [(v & E & Ed)|(s & E & Ed)]; rewrite E in CALL; cbn in CALL; injection CALL as <-; unfold handler;
      rewrite E in SB; simpl in SB.
    - unfold slash_validator_stake. rewrite <- CK, <- SKE, LC1, bind_Ok. unfold load_val.
      rewrite require_true by now apply N.eqb_eq. rewrite E. cbn [unpack_val]. rewrite bind_Ok.
      rewrite require_true by (now apply N.eqb_eq). rewrite bind_Ok.
      destruct LC as [(v' & E' & -> & ->)|(s' & E' & _)]; rewrite E in E'; [|discriminate]. injection E' as <-. auto.
    - unfold slash_sol_staker_stake. rewrite <- CK, <- SKE, LC1, bind_Ok. unfold load_sol.
      rewrite require_true by now apply N.eqb_eq. rewrite E. cbn [unpack_sol]. rewrite bind_Ok.
      rewrite require_true by (now apply N.eqb_eq). rewrite bind_Ok.
      destruct LC as [(v' & E' & _)|(s' & E' & -> & ->)]; rewrite E in E'; [discriminate|]. injection E' as <-. auto. }
  rewrite HD, bind_Ok. apply sync_effective_ok in R4.
  rewrite (runtime_check_touches cx [ck; sk; sl_authority a; sl_vault a; sl_mint a] w w4); [reflexivity| | |auto].
  - intros k NI. simpl in NI. assert (get w1 k = get w k) as E1.
    { apply TO1. intros IK. apply NI. clear - IK. simpl in IK. tauto. }
    assert (k <> ck /\ k <> sk /\ k <> sl_vault a /\ k <> sl_mint a) as (Q1 & Q2 & Q3 & Q4)
      by (clear - NI; repeat split; intros E; apply NI; subst k; tauto).
    destruct R4. apply account_ext.
    + rewrite Hlams, L3, L2, E1. auto.
    + now rewrite Ho, O3, O2.
    + rewrite Hdat. destruct (N.eqb_spec ck k); [congruence|]. destruct (N.eqb_spec sk k); [congruence|]. rewrite DA3, DA2; auto.
  - rewrite (proj1 (frozen_resync _ _ _ _ _ R4)). rewrite (total_same w2 w3) by auto. unfold w2, put_del. rewrite total_setd.
    apply (go_tot _ _ _ _ _ _ _ _ G1).
Qed.

(** ** Moving *)
Lemma ready_sum2 e ck w c k d k' d' : ready e ck w -> config_at e w ck c -> stake_of e w ck k = Some d ->
  stake_of e w ck k' = Some d' -> k <> k' ->
  effective d + effective d' <= cfg_effective c /\
  cfg_effective c - effective d - effective d' + staked d + staked d' <= sum_of e w ck staked.
Proof.
  intros [] C S S' NE. pose proof (re_eff _ _ C) as E. rewrite E.
  assert (sum_of e w ck staked = sum_of e w ck effective + sum_of e w ck (fun d => staked d - effective d)) as EQ.
  { rewrite <- sum_of_add. apply sum_of_same. intros k0 d0 S0. specialize (re_le _ _ S0). lia. }
  pose proof (sum_of_ge2 e w ck (fun d => staked d - effective d) k d k' d' NE S S') as G. cbv beta in G.
  pose proof (re_le _ _ S). pose proof (re_le _ _ S'). pose proof (sum_of_ge2 e w ck effective k d k' d' NE S S'). split; lia.
Qed.

Lemma move_goes e cx a n w s t : env_ok e -> inv e w -> settled_chain e w (mv_config a) ->
  good_move e cx a n w s t -> exists w', run e cx (CSolStakerMoveTokens a n) w = Ok w'.
Proof.
  intros OK I [[h HH] TT] G. destruct G as [[c C] [[SO SD] SK] [[DO DD] DK] NE (AU & AU2 & SG & NAC) VHR AM (CP1 & CP2) PAY WR].
  remember (mv_config a) as ck eqn:CK. remember (mv_source a) as sk eqn:SKE. remember (mv_dest a) as dk eqn:DKE.
  pose proof (ready_inv _ _ _ _ _ I C HH TT) as RY.
  assert (sk <> ck) as NSC by (intros ->; destruct C; congruence).
  assert (dk <> ck) as NDC by (intros ->; destruct C; congruence).
  assert (stake_of e w ck sk = Some (s_del s)) as S.
  { apply stake_of_intro; auto; rewrite SD; [reflexivity|]. simpl. now rewrite <- SK. }
  assert (stake_of e w ck dk = Some (s_del t)) as D.
  { apply stake_of_intro; auto; rewrite DD; [reflexivity|]. simpl. now rewrite <- DK. }
  destruct PAY as (ks & ND & KS & PAY).
  pose proof (sum_over_in2 (pending e w ck) ks sk dk ND (KS _ (or_introl eq_refl)) (KS _ (or_intror eq_refl)) NE) as P2.
  destruct (harvest_goes e ck w c sk (s_del s) (mv_authority a) (mv_vhr a) None OK RY C S AU NAC ltac:(discriminate) VHR ltac:(lia)) as
    (w1 & R1 & H1 & G1 & ac & ho & D1 & a' & l' & C1). rewrite SD in D1. cbn [upd_del] in D1.
  pose proof (go_ready _ _ _ _ _ _ _ _ G1) as RY1. pose proof (go_coll _ _ _ _ _ _ _ _ G1) as CO1.
  assert (config_at e w1 ck (set_cfg_last (set_cfg_acc c a') l')) as CA1 by (split; [rewrite (go_own _ _ _ _ _ _ _ _ G1); apply C|auto]).
  assert (stake_of e w1 ck dk = Some (s_del t)) as D1' by (rewrite (co_oth _ _ _ _ _ CO1); auto).
  assert (dat (get w1 dk) = DSol t) as DD1 by (rewrite (go_dat _ _ _ _ _ _ _ _ G1); auto).
  pose proof (go_paid _ _ _ _ _ _ _ _ G1) as PD1.
  assert (pending e w1 ck dk + e_rent e CONFIG_LEN <= lam (get w1 ck)) as P3.
  { rewrite (collected_pending _ _ _ _ _ _ CO1) by auto. lia. }
  destruct (harvest_goes e ck w1 _ dk (s_del t) (mv_authority a) (mv_vhr a) None OK RY1 CA1 D1' AU2 NAC ltac:(discriminate) VHR P3) as
    (w2 & R2 & H2 & G2 & ac2 & ho2 & D2 & a2 & l2 & C2). rewrite DD1 in D2. cbn [upd_del] in D2.
  assert (dat (get w2 sk) = DSol (set_s_del s (set_lasts (s_del s) ho ac))) as S2.
  { rewrite (go_dat _ _ _ _ _ _ _ _ G2); auto. }
  destruct (ready_sum2 _ _ _ _ _ _ _ _ RY C S D NE) as [RM1 RM2].
  pose proof (re_sum _ _ _ RY) as SB. pose proof (re_le _ _ _ RY _ _ D) as ED. pose proof (re_le _ _ _ RY _ _ S) as ES.
  pose proof (sum_of_ge2 e w ck staked sk _ dk _ NE S D) as SG2.
  set (x := staked (s_del s) - n). set (y := staked (s_del t) + n).
  assert (y < U64) as YB by (unfold y; clear - SG2 SB AM; lia).
  set (ds := set_staked (set_lasts (s_del s) ho ac) x).
  set (dd := set_cooldown (set_staked (set_lasts (s_del t) ho2 ac2) y) (N.max (cooldown (s_del s)) (cooldown (s_del t)))).
  set (c2 := set_cfg_last (set_cfg_acc (set_cfg_last (set_cfg_acc c a') l') a2) l2) in *.
  set (w3 := put_del w2 sk ds). set (w4 := put_del w3 dk dd).
  assert (dat (get w4 ck) = DConfig c2) as C4.
  { unfold w4, w3, put_del. ws. destruct (N.eqb_spec dk ck); [congruence|]. destruct (N.eqb_spec sk ck); [congruence|auto]. }
  assert (dat (get w4 sk) = DSol (set_s_del s ds)) as S4.
  { unfold w4, w3, put_del. ws. destruct (N.eqb_spec dk sk); [congruence|]. rewrite N.eqb_refl, S2. reflexivity. }
  assert (dat (get w4 dk) = DSol (set_s_del t dd)) as D4.
  { unfold w4, w3, put_del. ws. rewrite N.eqb_refl. destruct (N.eqb_spec sk dk); [congruence|]. rewrite D2. reflexivity. }
  pose proof (wf_dat _ sk (i_wf _ _ I)) as WS. rewrite SD in WS. pose proof (wf_dat _ dk (i_wf _ _ I)) as WDD. rewrite DD in WDD.
  destruct (limits_fit (DSol s) WS ltac:(split; [discriminate|intros ? [= <-]; exact CP1]) (s_lamports s) 0 ltac:(right; eauto)) as [B1 B2].
  destruct (limits_fit (DSol t) WDD ltac:(split; [discriminate|intros ? [= <-]; exact CP2]) (s_lamports t) 0 ltac:(right; eauto)) as [B3 B4].
  destruct (sync_runs w4 ck sk (s_lamports s) 0 c2 ds) as [w5 R5]; auto.
  { now rewrite S4. } { unfold ds, c2. cbn. clear - RM1. lia. }
  { unfold ds, c2. cbn. unfold x. clear - RM1 RM2 SB AM ED ES. lia. }
  pose proof (sync_effective_ok _ _ _ _ _ _ R5) as Y5. destruct Y5 as [cc dx lim Hc Hd Hm He Hb Ho Hdat Hlams].
  rewrite C4 in Hc. injection Hc as <-. rewrite S4 in Hd. injection Hd as <-.
  destruct (sync_runs w5 ck dk (s_lamports t) 0 (set_cfg_effective c2 (cfg_effective c2 - effective ds + N.min (staked ds) lim)) dd) as [w6 R6]; auto.
  { now rewrite Hdat, N.eqb_refl. }
  { rewrite Hdat. destruct (N.eqb_spec ck dk); [congruence|]. destruct (N.eqb_spec sk dk); [congruence|]. now rewrite D4. }
  { unfold dd, ds, c2. cbn. clear - RM1. lia. }
  { unfold dd, ds, c2. cbn. unfold x, y. clear - RM1 RM2 SB AM ED ES. lia. }
  exists w6. unfold run, handler, sol_staker_move_tokens. rewrite <- CK, <- SKE, <- DKE. cbv zeta.
  assert (load_config e w ck = Ok c) as LC1.
  { unfold load_config. rewrite require_true by (apply N.eqb_eq; apply C). now rewrite (proj2 C). }
  rewrite LC1, bind_Ok. rewrite require_true by auto. unfold load_sol at 1. rewrite require_true by now apply N.eqb_eq.
  rewrite SD. cbn [unpack_sol]. rewrite bind_Ok. rewrite require_true by now apply N.eqb_eq. rewrite bind_Ok.
  rewrite require_true by now apply N.eqb_eq. rewrite R1, bind_Ok.
  rewrite require_true by (rewrite (go_own _ _ _ _ _ _ _ _ G1); now apply N.eqb_eq).
  rewrite require_true by (apply negb_true_iff, N.eqb_neq; congruence).
  unfold load_sol. rewrite require_true by (rewrite (go_own _ _ _ _ _ _ _ _ G1); now apply N.eqb_eq).
  rewrite DD1. cbn [unpack_sol]. rewrite bind_Ok. rewrite require_true by now apply N.eqb_eq. rewrite bind_Ok.
  rewrite R2, bind_Ok, S2, D2. cbn [unpack_sol]. rewrite !bind_Ok.
  cbn [s_del set_s_del s_lamports authority staked cooldown set_lasts].
  rewrite assert_true by (rewrite <- AU, <- AU2; apply N.eqb_refl). rewrite csub_le by auto. rewrite bind_Ok.
  rewrite add64_lt by exact YB. rewrite bind_Ok. fold x y. fold ds. fold dd. fold w3. fold w4.
  rewrite R5, bind_Ok, R6, bind_Ok. pose proof (sync_effective_ok _ _ _ _ _ _ R6) as Y6.
  rewrite (runtime_check_touches cx [ck; sk; dk; mv_authority a] w w6); [reflexivity| | |auto].
  - apply touches_trans with w1.
    { refine (touches_incl _ _ _ _ (go_touch _ _ _ _ _ _ _ _ G1) _). intros k. simpl. tauto. }
    apply touches_trans with w2.
    { refine (touches_incl _ _ _ _ (go_touch _ _ _ _ _ _ _ _ G2) _). intros k. simpl. tauto. }
    apply touches_trans with w3; [refine (touches_incl _ _ _ _ (touches_put_del _ _ _) _); intros k; simpl; tauto|].
    apply touches_trans with w4; [refine (touches_incl _ _ _ _ (touches_put_del _ _ _) _); intros k; simpl; tauto|].
    apply touches_trans with w5; [refine (touches_incl _ _ _ _ (touches_resync _ _ _ _ _ (sync_effective_ok _ _ _ _ _ _ R5)) _); intros k; simpl; tauto|].
    refine (touches_incl _ _ _ _ (touches_resync _ _ _ _ _ Y6) _). intros k; simpl; tauto.
  - rewrite (proj1 (frozen_resync _ _ _ _ _ Y6)), (proj1 (frozen_resync _ _ _ _ _ (sync_effective_ok _ _ _ _ _ _ R5))).
    unfold w4, w3, put_del. rewrite !total_setd. rewrite (go_tot _ _ _ _ _ _ _ _ G2). apply (go_tot _ _ _ _ _ _ _ _ G1).
Qed.
