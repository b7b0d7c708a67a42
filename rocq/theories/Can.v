(** The conditions of [SpecCan.v] are necessary and sufficient. *)
From Verif Require Import Base Types Layout Instr Math External Processor Runtime History Spec SpecReward SpecLive SpecNeeds SpecCan
  WorldLemmas Effects Handlers Evolve Sane Wf Totals Arith Nets Caps Stakers Deposits Inv Life Rewards Collect Pays Progress Solvency
  Live LiveTokens LiveStake Needs.

(** ** Token transfers *)
Lemma authorise_spend sig t who n t' : token_authorise sig t who n = Ok t' -> sig who = true /\ may_spend t who n.
Proof.
  intros H. unfold token_authorise in H. cbv zeta in H. unfold may_spend.
  assert (forall (H : (let* _ := require ((who =? t_owner t) && sig who) TokenError in Ok t) = Ok t'), sig who = true /\ who = t_owner t) as OWN.
  { intros H'. stepg H' G. apply andb_true_iff in G as [G1 G2]. b2p G1. auto. }
  destruct (t_delegate t) as [d|].
  - destruct (N.eqb_spec d who) as [E|NE].
    + stepg H G. stepg H G1. rewrite E. auto.
    + apply OWN in H as []. split; [auto|]. right. split; [congruence|auto].
  - apply OWN in H as []. split; [auto|]. right. split; [congruence|auto].
Qed.
Lemma spend_authorise sig t who n : sig who = true -> may_spend t who n -> exists t', token_authorise sig t who n = Ok t'.
Proof.
  intros SG [[D L]|[D O]]; unfold token_authorise; cbv zeta.
  - rewrite D, N.eqb_refl. rewrite !require_true; eauto. now apply N.leb_le.
  - rewrite O, N.eqb_refl, <- O, SG. cbn [andb]. rewrite require_true by auto.
    destruct (t_delegate t) as [d|]; [|eauto]. destruct (N.eqb_spec d who); [congruence|eauto].
Qed.
Lemma transfer_full e sig w src mnt dst auth n w' : token_transfer e sig w src mnt dst auth n = Ok w' -> src <> dst ->
  exists s d, dat (get w src) = DToken s /\ dat (get w dst) = DToken d /\ t_frozen s = false /\ t_frozen d = false /\
    may_spend s auth n /\ t_amount d + n < U64 /\ dat (get w' dst) = DToken (set_t_amount d (t_amount d + n)).
Proof.
  intros H NE. unfold token_transfer in H. stepn H s ES. stepn H d ED. stepg H G1. stepg H G2. stepg H G3. stepn H m EM. stepn H s' EA.
  apply token_at_ok in ES as [S1 S2]. apply token_at_ok in ED as [D1 D2]. apply authorise_spend in EA as [_ EA].
  apply andb_true_iff in G1 as [F1 F2]. apply negb_true_iff in F1, F2.
  rewrite (proj2 (N.eqb_neq _ _) NE) in H. stepg H G4. injection H as <-. exists s, d. split; [auto|]. split; [auto|].
  split; [auto|]. split; [auto|]. split; [auto|]. split; [auto|]. ws. now rewrite N.eqb_refl.
Qed.
Lemma transfer_goes e sig w src mnt dst auth n s d m :
  usable e w src mnt s -> usable e w dst mnt d -> src <> dst -> own (get w mnt) = e_token e ->
  dat (get w mnt) = DMint m -> sig auth = true -> may_spend s auth n -> n <= t_amount s -> t_amount d + n < U64 ->
  exists s', token_transfer e sig w src mnt dst auth n =
    Ok (setd (setd w src (DToken s')) dst (DToken (set_t_amount d (t_amount d + n)))).
Proof.
  intros (So & Sd & Sm & Sf) (Do & Dd & Dm & Df) NE Mo Md SG MS LE RM. unfold token_transfer.
  rewrite (token_at_runs _ _ _ _ So Sd), bind_Ok, (token_at_runs _ _ _ _ Do Dd), bind_Ok.
  rewrite require_true by now rewrite Sf, Df. rewrite require_true by now apply N.leb_le.
  rewrite require_true by now rewrite Sm, Dm, N.eqb_refl. rewrite (mint_at_runs _ _ _ _ Mo Md), bind_Ok.
  destruct (spend_authorise sig s auth n SG MS) as [s' ->]. rewrite bind_Ok.
  rewrite (proj2 (N.eqb_neq _ _) NE). rewrite require_true by now apply N.ltb_lt. cbv zeta. eauto.
Qed.
Lemma usable_same e w w' k m t : usable e w k m t -> own (get w' k) = own (get w k) -> dat (get w' k) = dat (get w k) ->
  usable e w' k m t.
Proof. intros (A & B & C) O D. repeat split; try apply C; congruence. Qed.
Lemma usable_setd e w k m t j D : usable e w k m t -> j <> k -> usable e (setd w j D) k m t.
Proof. intros (A & B & C) NE. repeat split; try apply C; ws; auto. destruct (N.eqb_spec j k); [congruence|auto]. Qed.

(** ** Balance at a call *)
Lemma lsum_le w w' ks : (forall k, In k ks -> lam (get w k) <= lam (get w' k)) -> lsum w ks <= lsum w' ks.
Proof.
  induction ks as [|k ks IH]; simpl; [lia|]. intros H. pose proof (H k (or_introl eq_refl)). specialize (IH (fun x i => H x (or_intror i))). lia.
Qed.
Lemma lsum_gain w w' a p ks : (forall k, In k ks -> lam (get w' k) = lam (get w k) + (if a =? k then p else 0)) -> In a ks ->
  lsum w ks + p <= lsum w' ks.
Proof.
  intros H. induction ks as [|k ks IH]; simpl; [tauto|]. intros [->|I].
  - rewrite (H a (or_introl eq_refl)), N.eqb_refl.
    assert (lsum w ks <= lsum w' ks) by (apply lsum_le; intros j J; rewrite (H j (or_intror J)); destruct (a =? j); lia). lia.
  - specialize (IH (fun x i => H x (or_intror i)) I). rewrite (H k (or_introl eq_refl)). destruct (a =? k); lia.
Qed.
Lemma lam_sum_gain w w' a p ks : (forall k, In k ks -> lam (get w' k) = lam (get w k) + (if a =? k then p else 0)) ->
  lam_sum w' ks = lam_sum w ks -> In a ks -> p = 0.
Proof.
  intros H E I. assert (lsum w (nodup N.eq_dec ks) + p <= lsum w' (nodup N.eq_dec ks)) as L.
  { apply (lsum_gain w w' a p); [|now apply nodup_In]. intros k K. apply H. now apply nodup_In in K. }
  unfold lam_sum in E. change (lsum w' (nodup N.eq_dec ks) = lsum w (nodup N.eq_dec ks)) in E. lia.
Qed.
Lemma harvest_gain e w ck vhr auth sk w' : wf_world w -> own (get w sk) = e_prog e ->
  belongs e ck sk (dat (get w sk)) -> harvested e w ck vhr auth (e_vault e ck) sk None w' ->
  forall k, k <> ck -> lam (get w' k) = lam (get w k) + (if auth =? k then pending e w ck sk else 0).
Proof.
  intros WF O B []. assert (stake_of e w ck sk = Some d) as SD by (apply stake_of_intro; auto).
  assert (cfg_acc c < U128) as AB by (pose proof (wf_dat _ ck WF) as W; rewrite Hc in W; simpl in W; tauto).
  apply eligible_ok in Hsr as [Hsr _]. apply eligible_ok in Hhr as [Hhr _].
  rewrite (acc_now_rpt _ _ _ AB Hr), since_wsub in Hsr. rewrite since_wsub in Hhr.
  assert (pending e w ck sk = sr + hr) as P.
  { unfold pending. rewrite SD, Hc. unfold stake_claim, holder_claim, holder_acc. rewrite <- Hv, Hh.
    change SCALE with (10 ^ 18) in *. rewrite <- Hsr, <- Hhr. lia. }
  intros k NK. rewrite Hlams, P. unfold paid_lam, keeper_lam. cbn [keeper_part]. rewrite N.sub_0_r, ?N.add_0_r.
  destruct (N.eqb_spec auth k) as [->|]; [lia|]. destruct (N.eqb_spec ck k); [congruence|lia].
Qed.
(** The accounts handed over at a call have the lamports they began with. *)
Lemma cpi_balanced e w ck vhr auth sk w1 w3 ks : wf_world w -> own (get w sk) = e_prog e ->
  belongs e ck sk (dat (get w sk)) -> harvested e w ck vhr auth (e_vault e ck) sk None w1 ->
  (forall k, lam (get w3 k) = lam (get w1 k)) -> unheld [ck; sk] ks -> lam_sum w3 ks = lam_sum w ks ->
  balanced e w ck sk auth ks /\ (forall k, In k ks -> lam (get w3 k) = lam (get w k)).
Proof.
  intros WF O B H L U S. pose proof (harvest_gain _ _ _ _ _ _ _ WF O B H) as G.
  assert (forall k, In k ks -> k <> ck /\ k <> sk) as AP.
  { intros k I. specialize (U k I). simpl in U. split; intros ->; tauto. }
  assert (forall k, In k ks -> lam (get w3 k) = lam (get w k) + (if auth =? k then pending e w ck sk else 0)) as G3.
  { intros k I. rewrite L. apply G. now apply AP. }
  assert (In auth ks -> pending e w ck sk = 0) as Z by (apply (lam_sum_gain w w3); auto).
  split; [split; auto|]. intros k I. rewrite (G3 k I). destruct (N.eqb_spec auth k) as [->|]; [rewrite Z by auto|]; lia.
Qed.

(** ** Staking: necessity *)
Lemma not_pool_pda e ck m : env_ok e -> e_vault e ck <> e_pool e m.
Proof. intros OK E. eapply (ok_pool_pda e OK). right. right. left. exists ck. symmetry. exact E. Qed.
Lemma deposit_full e sig w pool ptok vhr tacc mnt owner tp n acc w' ck : env_ok e -> owner = e_vault e ck ->
  rewards_deposit e sig w pool ptok vhr tacc mnt owner tp n acc = Ok w' ->
  tacc <> ptok /\
  (exists t, dat (get w tacc) = DToken t /\ may_spend t owner n) /\
  (exists t, dat (get w ptok) = DToken t /\ t_frozen t = false /\ t_amount t + n < U64) /\
  exists h, dat (get w vhr) = DHolder h /\ h_deposited h + n < U64 /\ since acc (h_last h) * h_deposited h < U128 /\
    since acc (h_last h) * h_deposited h / 10 ^ 18 <= pool_available e w pool.
Proof.
  intros OK OE H. unfold rewards_deposit in H. stepn H h EH. stepn H t ET. stepg H G1. stepg H G2. stepg H G3. stepn H r ER. stepg H G4. stepg H G5.
  cbv zeta in H. stepn H w1 E1. clear H.
  apply rewards_checked_ok in EH as (P1 & P2 & (p & P3 & P4 & P5 & P6) & _ & P7 & P8 & P9).
  apply token_at_ok in ET as [T1 T2]. apply andb_true_iff in G1 as [G1 _]. b2p G1.
  assert (tacc <> ptok) as NE.
  { intros E. rewrite E, P3 in T2. injection T2 as <-. apply (not_pool_pda e ck mnt OK). congruence. }
  split; [auto|]. destruct (transfer_full _ _ _ _ _ _ _ _ _ E1 NE) as (s & d & S1 & D1 & F1 & F2 & MS & RM & _).
  wsi S1. wsi D1. destruct (N.eqb_spec vhr tacc); [congruence|]. destruct (N.eqb_spec vhr ptok); [congruence|].
  apply pool_reward_needs in ER as [B ->].
  split; [eauto|]. split; [eauto|]. exists h. auto.
Qed.
Lemma stake_more e cx a co n w w' c0 : env_ok e -> wf_world w -> config_at e w (st_config a) c0 -> own (get w (st_stake a)) = e_prog e ->
  belongs e (st_config a) (st_stake a) (dat (get w (st_stake a))) -> stake_tokens e cx a co n w = Ok w' ->
  st_source a <> st_vault a -> st_source a <> st_ptok a -> more_stake e cx w a n.
Proof.
  intros OK WF [CO CD] SO B H NE1 NE2. unfold stake_tokens in H. cbv zeta in H. stepn H w1 E1. apply harvest_ok in E1 as H1.
  stepn H c Ec. stepg H Hvp. stepg H Hva. stepn H tu Eu. stepg H G3. stepg H G4.
  stepn H m4 E4. stepg H Hpos. stepn H d Ed. stepn H s Es. 
  destruct (match dat (get (put_del w1 (st_stake a) (set_staked d s)) (st_stake a)) with
            | DVal v => (v_total v, v_min v) | DSol s => (s_lamports s, 0) | _ => (0,0) end)
    as [l lmin].
  stepn H w3 E3. apply sync_effective_ok in E3. stepn H u1 C1. stepn H w4 E5.
  destruct (transfer_full _ _ _ _ _ _ _ _ _ E5 NE1) as (ts & tv & S1 & S2 & _ & _ & MS & RM & D4).
  apply token_transfer_ok in E5. stepn H u2 C2. apply cpi_check_ok in C2 as [U2 L2].
  destruct (deposit_full _ _ _ _ _ _ _ _ _ _ _ _ _ (st_config a) OK Hvp H) as (NVP & (t5 & D5 & M5) & (p5 & Q5 & F5 & R5) & h & DH & HB & PB & PV).
  assert (keeps w w3) as K.
  { eapply keeps_trans; [eapply keeps_harvested; eauto|]. eapply keeps_trans; [apply keeps_put|]. eapply keeps_resynced; eauto. }
  assert (forall k, lam (get w4 k) = lam (get w1 k)) as L41.
  { intros k. destruct E5. rewrite Hl. destruct E3. rewrite Hlams. unfold put_del. now ws. }
  destruct (cpi_balanced _ _ _ _ _ _ _ _ _ WF SO B H1 L41 U2 L2) as [BAL LAM].
  assert (dat (get w (st_vhr a)) = DHolder h) as DW.
  { destruct E5. rewrite Hdat in DH. destruct (N.eqb_spec (st_source a) (st_vault a)); [congruence|].
    destruct (st_source a =? st_vhr a); [discriminate|]. destruct (st_vault a =? st_vhr a); [discriminate|].
    exact (keeps_dat _ _ _ (DHolder h) K I DH). }
  assert (st_vhr a = e_holder e (e_vault e (st_config a))) as VH.
  { destruct H1. exact Hv. }
  assert (deposit e w (st_config a) = h_deposited h /\ holder_acc e w (st_config a) = h_last h) as [EQ1 EQ2].
  { unfold deposit, holder_acc. rewrite <- VH, DW. auto. }
  assert (forall k, In k (st_source_auth a :: stake_cpi a) -> In k ([st_source a; st_mint a; st_vault a; st_source_auth a] ++
    [st_pool a; st_ptok a; st_vhr a; st_vault a; st_mint a; st_vault_pda a; st_tokprog a])) as INC.
  { intros k. unfold stake_cpi. simpl. tauto. }
  constructor.
  - destruct BAL as [B1 B2]. split; intros; [apply B1|apply B2]; auto.
  - intros t D. pose proof (keeps_dat _ _ _ (DToken ts) K I S1) as X. rewrite D in X. injection X as ->. auto.
  - intros t D. pose proof (keeps_dat _ _ _ (DToken tv) K I S2) as X. rewrite D in X. injection X as ->. split; [|exact RM].
    rewrite D5 in D4. injection D4 as ->. exact M5.
  - intros t D. destruct E5. rewrite Hdat in Q5. destruct (N.eqb_spec (st_source a) (st_vault a)); [congruence|].
    destruct (N.eqb_spec (st_source a) (st_ptok a)); [congruence|]. destruct (N.eqb_spec (st_vault a) (st_ptok a)); [congruence|].
    pose proof (keeps_dat _ _ _ (DToken p5) K I Q5) as X. rewrite D in X. injection X as ->. auto.
  - unfold pool_computes, pool_owes. rewrite EQ1, EQ2. split; [exact PB|]. intros NZ. unfold pool_available in PV.
    rewrite LAM in PV by (apply INC; unfold stake_cpi; simpl; tauto).
    change (2 ^ 128) with U128 in *. revert NZ PV. clear.
    generalize (since (c_pool_acc cx mod U128) (h_last h) * h_deposited h / 10 ^ 18). intros r NZ Hav. lia.
  - rewrite EQ1. exact HB.
Qed.

(** ** Unstaking: necessity *)
Lemma withdraw_full e sig w pool ptok vhr tacc mnt owner tp n acc w' ck : env_ok e -> owner = e_vault e ck ->
  n < U64 - 1 \/ (exists h, dat (get w vhr) = DHolder h /\ n <= h_deposited h /\ h_deposited h < U64) ->
  rewards_withdraw e sig w pool ptok vhr tacc mnt owner tp n acc = Ok w' ->
  tacc <> ptok /\
  (exists t, dat (get w tacc) = DToken t /\ t_amount t + n < U64 /\ dat (get w' tacc) = DToken (set_t_amount t (t_amount t + n))) /\
  (exists t, dat (get w ptok) = DToken t /\ t_frozen t = false /\ may_spend t pool n) /\
  (exists h, dat (get w vhr) = DHolder h /\ since acc (h_last h) * h_deposited h < U128 /\
    since acc (h_last h) * h_deposited h / 10 ^ 18 < U64) /\
  (forall k, k <> vhr -> k <> tacc -> k <> ptok -> dat (get w' k) = dat (get w k)) /\
  exists r, r <= lam (get w pool) /\ (forall k, lam (get w' k) = pay_lam w pool owner r k).
Proof.
  intros OK OE NB H. pose proof (rewards_withdraw_ok _ _ _ _ _ _ _ _ _ _ _ _ _ H) as HW.
  unfold rewards_withdraw in H. stepn H h EH. stepn H t ET. stepg H G1. stepg H G2. cbv zeta in H. stepn H p EP.
  stepg H G3. stepg H G4. stepn H r ER. stepn H w1 E1.
  apply rewards_checked_ok in EH as (P1 & P2 & (q & P3 & P4 & P5 & P6) & _ & P7 & P8 & P9).
  apply token_at_ok in ET as [T1 T2]. apply andb_true_iff in G1 as [G1 _]. b2p G1.
  assert ((if n =? U64 - 1 then h_deposited h else n) = n) as AM.
  { destruct (N.eqb_spec n (U64 - 1)); [|auto]. destruct NB as [|(h' & D' & L1 & L2)]; [lia|].
    rewrite P9 in D'. injection D' as <-. lia. }
  rewrite AM in *.
  assert (tacc <> ptok) as NE.
  { intros E. rewrite E, P3 in T2. injection T2 as <-. apply (not_pool_pda e ck mnt OK). congruence. }
  split; [auto|]. destruct (transfer_full _ _ _ _ _ _ _ _ _ E1 (not_eq_sym NE)) as (s & d & S1 & D1 & F1 & F2 & MS & RM & D2).
  wsi S1. wsi D1. destruct (N.eqb_spec vhr tacc); [congruence|]. destruct (N.eqb_spec vhr ptok); [congruence|].
  apply pool_pay_ok in H as (Q0 & Q1 & Q2 & Q3 & Q4).
  assert (since acc (h_last h) * h_deposited h / 10 ^ 18 < U64) as RB.
  { unfold pool_reward in ER. cbv zeta in ER. rewrite since_wsub in ER.
    destruct (N.eqb_spec (since acc (h_last h)) 0) as [->|]; [reflexivity|].
    destruct (_ <? U128); [|discriminate]. change 1000000000000000000 with (10 ^ 18) in ER.
    destruct (N.ltb_spec (since acc (h_last h) * h_deposited h / 10 ^ 18) U64); [auto|discriminate]. }
  apply pool_reward_needs in ER as [B _].
  split; [exists d; rewrite Q2; auto|]. split; [eauto|]. split; [eauto|]. split.
  - intros k K1 K2 K3. rewrite Q2. apply token_transfer_ok in E1. destruct E1. rewrite Hdat.
    destruct (N.eqb_spec ptok tacc); [congruence|]. destruct (N.eqb_spec ptok k); [congruence|]. destruct (N.eqb_spec tacc k); [congruence|].
    ws. destruct (N.eqb_spec vhr k); [congruence|auto].
  - eexists. assert (forall k, lam (get w1 k) = lam (get w k)) as L1.
    { intros k. apply token_transfer_ok in E1. destruct E1. rewrite Hl. now ws. }
    rewrite L1 in Q0. split; [exact Q0|]. intros k. rewrite Q3. unfold pay_lam. rewrite !L1. reflexivity.
Qed.
Lemma unstake_more e cx a n w w' c1 d1 : env_ok e -> inv e w -> needs_unstake e cx w a n c1 d1 -> unstake_tokens e cx a n w = Ok w' ->
  un_dest a <> un_ptok a -> more_unstake e cx w a n.
Proof.
  intros OK IV ND H ND1. pose proof (i_wf _ _ IV) as WF.
  unfold unstake_tokens in H. cbv zeta in H. stepn H c0 E0. apply load_config_ok in E0 as [O0 E0].
  stepg H G1. stepg H G2. stepn H t Et. stepg H G3. stepg H G4. stepn H pll EL.
  destruct pll as [[p l] lmin]. stepg H G5. apply load_any_ok in EL as (EL & LIM & _); auto.
  stepg H G6. stepn H d0 Ed0. stepg H G7. stepg H G8. stepn H m0 Em0. stepn H w1 E1.
  apply harvest_ok in E1 as H1. stepn H d Ed. stepn H c Ec. 
  stepg H G9. stepg H G10. stepn H m Em. stepg H G11. stepn H s Es.
  stepn H w3 E3. apply sync_effective_ok in E3.
  stepn H u1 C1. stepn H w4 E4. stepn H u2 C2. apply cpi_check_ok in C2 as [U2 L2].
  assert (keeps w w3) as K.
  { eapply keeps_trans; [eapply keeps_harvested; eauto|]. eapply keeps_trans; [apply keeps_put|]. eapply keeps_resynced; eauto. }
  assert (un_vhr a = e_holder e (e_vault e (un_config a))) as VH by (destruct H1; exact Hv).
  assert (n < U64 - 1 \/ (exists h, dat (get w3 (un_vhr a)) = DHolder h /\ n <= h_deposited h /\ h_deposited h < U64)) as NB.
  { right. pose proof (withdraw_needs _ _ _ _ _ _ _ _ _ _ _ _ _ E4) as (_ & _ & _ & _ & h & _ & DH & _).
    exists h. split; [auto|]. pose proof (keeps_dat _ _ _ (DHolder h) K I DH) as DW.
    destruct (nu_deposit _ _ _ _ _ _ _ ND) as [ND2 _]. unfold deposit in ND2. rewrite <- VH, DW in ND2. split; [auto|].
    pose proof (wf_dat _ (un_vhr a) WF) as W. rewrite DW in W. simpl in W. tauto. }
  destruct (withdraw_full _ _ _ _ _ _ _ _ _ _ _ _ _ (un_config a) OK G3 NB E4)
    as (NVP & (tv & V1 & V2 & V3) & (tp & P1 & P2 & P3) & (h & DH & PB & PV) & DA4 & r & RL & L4).
  destruct (transfer_full _ _ _ _ _ _ _ _ _ H) as (ts & td & S1 & S2 & _ & _ & MS & RM & _); [congruence|].
  assert (forall k, lam (get w3 k) = lam (get w1 k)) as L31.
  { intros k. destruct E3. rewrite Hlams. unfold put_del. now ws. }
  rewrite (lam_sum_pay w3 w4 (un_pool a) (un_vault_pda a) r) in L2; auto; try (apply in_or_app; left; clear; simpl; tauto).
  destruct (cpi_balanced _ _ _ _ _ _ _ _ _ WF G4 EL H1 L31 U2 L2) as [BAL _].
  pose proof (keeps_dat _ _ _ (DHolder h) K I DH) as DW.
  assert (deposit e w (un_config a) = h_deposited h /\ holder_acc e w (un_config a) = h_last h) as [EQ1 EQ2].
  { unfold deposit, holder_acc. rewrite <- VH, DW. auto. }
  constructor.
  - destruct BAL as [B1 B2]. assert (incl (unstake_cpi a) ([un_pool a; un_ptok a; un_vhr a; un_vault a; un_mint a; un_vault_pda a; un_tokprog a] ++
      [un_vault a; un_mint a; un_dest a; un_vault_pda a])) as INC by (intros k; unfold unstake_cpi; simpl; tauto).
    split; intros; [apply B1|apply B2]; auto.
  - intros x D. pose proof (keeps_dat _ _ _ (DToken tv) K I V1) as X. rewrite D in X. injection X as ->. split; [|exact V2].
    rewrite V3 in S1. injection S1 as <-. exact MS.
  - intros x D. pose proof (keeps_dat _ _ _ (DToken tp) K I P1) as X. rewrite D in X. injection X as ->. auto.
  - intros x D. destruct (N.eq_dec (un_dest a) (un_vhr a)) as [E|NE]; [rewrite E in D; congruence|].
    rewrite DA4 in S2 by congruence. pose proof (keeps_dat _ _ _ (DToken td) K I S2) as X. rewrite D in X. injection X as ->. exact RM.
  - unfold pool_computes, pool_owes. rewrite EQ1, EQ2. split; [exact PB|exact PV].
Qed.

(** ** Slashing: necessity *)
Lemma slash_more e cx a c0 l lmin n w w' d0 : env_ok e -> inv e w -> config_at e w (sl_config a) c0 ->
  own (get w (sl_stake a)) = e_prog e -> belongs e (sl_config a) (sl_stake a) (dat (get w (sl_stake a))) ->
  slash_stake e cx a c0 l lmin n w = Ok w' -> del_of (dat (get w (sl_stake a))) = Ok d0 -> more_slash e w a n d0.
Proof.
  intros OK IV CA SO BE H D0 P0. pose proof (i_wf _ _ IV) as WF. unfold slash_stake in H. stepn H vs Ev.
  destruct (e_create_vault e (sl_config a) (cfg_bump c0)) as [vs'|] eqn:EV; [|discriminate].
  injection Ev as ->. stepg H G1. subst vs. apply (vault_auth_eq _ _ _ _ _ OK (i_sane _ _ IV) CA) in EV.
  stepn H w1 E1. apply harvest_ok in E1. stepn H c Ec. apply unpack_config_ok in Ec.
  stepg H G2. stepg H G3. stepg H G4. stepg H G5. stepn H t Et. stepg H G6.
  stepn H w3 E3. clear H.
  unfold process_slash_for_delegation in E3. stepg E3 G7. stepg E3 G8. stepn E3 d Ed. cbv zeta in E3.
  stepn E3 s Es. apply csub_ok in Es as [_ ->].
  destruct (harvested_del _ _ _ _ _ _ _ _ _ _ _ E1 D0 Ed) as (A1 & _). rewrite EV in E1.
  pose proof (keeps_harvested _ _ _ _ _ _ _ _ _ E1) as K1. rewrite A1 in E3.
  destruct (N.ltb_spec 0 (N.min n (staked d0))) as [L|L]; [|lia].
  stepn E3 m Em. stepn E3 u C. apply cpi_check_ok in C as [U2 L2].
  assert (keeps w (put_del w1 (sl_stake a) (set_staked d (staked d0 - N.min n (staked d0))))) as K
    by (eapply keeps_trans; [eauto|apply keeps_put]).
  set (w2 := put_del w1 (sl_stake a) (set_staked d (staked d0 - N.min n (staked d0)))) in *.
  assert (forall k, lam (get w2 k) = lam (get w1 k)) as L21 by (intros k; unfold w2, put_del; now ws).
  destruct (cpi_balanced _ _ _ _ _ _ _ _ _ WF SO BE E1 L21 U2 L2) as [BAL _].
  split; [exact BAL|]. apply token_burn_ok in E3. destruct E3. apply authorise_spend in Hau as [_ MS]. split.
  - intros x D. pose proof (keeps_dat _ _ _ (DToken s) K I Hs) as X. rewrite D in X. injection X as ->. exact MS.
  - intros x D. pose proof (keeps_dat _ _ _ (DMint m0) K I Hm) as X. rewrite D in X. injection X as ->. exact Hsup.
Qed.

(** ** Staking: sufficiency *)
Lemma deposit_goes e sig w pool ptok vhr tacc mnt owner tp n acc h t p m :
  pool = e_pool e mnt -> own (get w pool) = e_rewards e -> vhr = e_holder e owner -> own (get w vhr) = e_rewards e ->
  dat (get w vhr) = DHolder h -> sig owner = true -> tp = e_token e ->
  own (get w mnt) = e_token e -> dat (get w mnt) = DMint m ->
  usable e w tacc mnt t -> t_owner t = owner -> may_spend t owner n -> usable e w ptok mnt p -> t_owner p = pool -> tacc <> ptok ->
  n <= t_amount t -> t_amount p + n < U64 -> h_deposited h + n < U64 ->
  since acc (h_last h) * h_deposited h < U128 ->
  (since acc (h_last h) * h_deposited h / 10 ^ 18 <> 0 ->
   since acc (h_last h) * h_deposited h / 10 ^ 18 + e_rent e 64 <= lam (get w pool)) ->
  lam (get w pool) < U64 -> total_lamports w < U64 ->
  exists w', rewards_deposit e sig w pool ptok vhr tacc mnt owner tp n acc = Ok w' /\
    (forall k, k <> vhr -> k <> tacc -> k <> ptok -> dat (get w' k) = dat (get w k)) /\
    (forall k, own (get w' k) = own (get w k)) /\
    exists r, r <= lam (get w pool) /\ (forall k, lam (get w' k) = pay_lam w pool owner r k).
Proof.
  intros PE PO VE VO Hh SG TP MO MD LT Tw MSP LP Pw NE NT RM HB R1 R2 WF TT. unfold rewards_deposit.
  pose proof LT as (To & Td & Tm & Tf). pose proof LP as (Po & Pd & Pm & Pf).
  unfold rewards_checked. rewrite require_true by (rewrite PE at 1; rewrite PO; now rewrite !N.eqb_refl).
  rewrite (token_at_runs _ _ _ _ Po Pd), bind_Ok. rewrite require_true by now rewrite Pw, Pm, !N.eqb_refl.
  rewrite require_true by auto. rewrite require_true by (rewrite VE at 1; rewrite VO; now rewrite !N.eqb_refl).
  rewrite Hh, bind_Ok. rewrite (token_at_runs _ _ _ _ To Td), bind_Ok. rewrite require_true by now rewrite Tw, Tm, !N.eqb_refl.
  rewrite require_true by now apply N.eqb_eq. rewrite require_true by now apply N.leb_le.
  assert (exists r, pool_reward acc (h_last h) (h_deposited h) = Ok r /\ r <= pool_available e w pool) as (r & Er & AV).
  { unfold pool_reward, pool_available. cbv zeta. rewrite since_wsub.
    destruct (since acc (h_last h) =? 0); [exists 0; split; [auto|lia]|].
    rewrite (proj2 (N.ltb_lt _ _) R1). change 1000000000000000000 with (10 ^ 18).
    revert R2 WF. generalize (since acc (h_last h) * h_deposited h / 10 ^ 18). intros r R2 WF.
    assert (r < U64 /\ r <= lam (get w pool) - e_rent e 64) as [X Y].
    { destruct (N.eq_dec r 0) as [->|NZ]; [split; [reflexivity|apply N.le_0_l]|]. specialize (R2 NZ). lia. }
    rewrite (proj2 (N.ltb_lt _ _) X). eauto. }
  rewrite Er, bind_Ok. rewrite require_true by now apply N.leb_le. rewrite require_true by now apply N.ltb_lt. cbv zeta.
  set (w1 := setd w vhr _).
  assert (vhr <> tacc) as N1 by congruence. assert (vhr <> ptok) as N2 by congruence. assert (vhr <> mnt) as N3 by congruence.
  assert (usable e w1 ptok mnt p) as L1 by (apply usable_setd; auto).
  assert (usable e w1 tacc mnt t) as L2' by (apply usable_setd; auto).
  destruct (transfer_goes e sig w1 tacc mnt ptok owner n t p m L2' L1 NE) as [s' TR]; auto.
  { unfold w1. ws. auto. } { unfold w1. ws. destruct (N.eqb_spec vhr mnt); [congruence|auto]. }
  rewrite TR, bind_Ok. set (w2 := setd (setd w1 tacc _) ptok _).
  assert (forall k, lam (get w2 k) = lam (get w k)) as L2 by (intros k; unfold w2, w1; now ws).
  assert (r <= lam (get w pool)) as RL by (unfold pool_available in AV; lia).
  destruct (pool_pay_runs w2 pool owner r) as [w' P]; [now rewrite L2|rewrite (total_same w w2); auto|].
  exists w'. split; [exact P|]. apply pool_pay_ok in P as (Q0 & Q1 & Q2 & Q3 & Q4).
  assert (forall k, own (get w2 k) = own (get w k)) as O2 by (intros k; unfold w2, w1; now ws).
  split; [|split].
  - intros k K1 K2 K3. rewrite Q2. unfold w2, w1. ws. keys; congruence.
  - intros k. now rewrite Q1, O2.
  - exists r. split; [auto|]. intros k. rewrite Q3. unfold pay_lam. now rewrite !L2.
Qed.

Lemma stake_can e cx a n w c d ca : env_ok e -> inv e w -> total_lamports w < U64 ->
  needs_stake e cx w a n c d -> more_stake e cx w a n -> stake_call (dat (get w (st_stake a))) a n = Some ca ->
  st_authority a <> st_config a -> st_source a <> st_vault a -> st_source a <> st_ptok a ->
  (forall k, In k (writes ca) -> writable cx k = true) -> exists w', run e cx ca w = Ok w'.
Proof.
  intros OK I TT ND MD' CALL NAC NSV NSP WR0.
  destruct ND as [C (S & AU & VHR & (h & HH) & PAY) CAPS (VE & PDA & vt & LV & VOW) (MO & m & MD) (PE & PO & VHO & pt & PT1 & PT2 & PT3 & PT4) TP
    (SG & st & LS & _ & NST) N0].
  destruct MD' as [[APA BAL] MSS MSV MSP [RW1 RW2] RW3].
  assert (forall k, In k (st_config a :: st_stake a :: st_authority a ::
    [st_source a; st_vault a; st_pool a; st_ptok a; st_vhr a; st_vault_pda a]) -> writable cx k = true) as WR.
  { intros k IK. apply WR0. destruct (dat (get w (st_stake a))); simpl in CALL; try discriminate; injection CALL as <-; exact IK. }
  clear WR0. remember (st_config a) as ck eqn:CK. remember (st_stake a) as sk eqn:SKE.
  rewrite VHR in HH.
  pose proof (ready_inv _ _ _ _ _ I C HH TT) as RY.
  assert (affordable e w ck (fun k => k = sk)) as PAY'.
  { exists [sk]. split; [apply NoDup_singleton|]. split; [intros x ->; left; auto|]. simpl. lia. }
  destruct (prefix_goes e ck w c sk d (st_authority a) (st_vhr a) OK RY C S AU NAC VHR PAY') as (w1 & c1 & d1 & R1 & PX).
  pose proof PX as [G1 C1 (ca1 & cl1 & CE1) SD1 (dh1 & da1 & DE1 & D1) S1 [RM1 RM2]].
  pose proof S as S'. apply stake_of_some in S' as (SO & SD & SB).
  assert (sk <> ck) as NSC. { intros ->. rewrite (proj2 C) in SD. discriminate. }
  destruct (load_any_runs _ _ _ _ _ S) as (l & lmin & LA & LC).
  pose proof (wf_dat _ sk (i_wf _ _ I)) as WD.
  destruct (limits_fit _ WD CAPS _ _ LC) as [LB1 LB2].
  assert (sum_of e w ck staked <= h_deposited h /\ deposit e w ck = h_deposited h) as (SB2 & DE).
  { pose proof (i_backed _ _ I ck) as B. unfold deposit in *. rewrite HH in *. auto. }
  assert (holder_acc e w ck = h_last h) as HA by (unfold holder_acc; now rewrite HH).
  assert (h_deposited h + n < U64) as HB by (rewrite <- DE; auto).
  pose proof (sum_of_ge e w ck staked sk d S) as SGE.
  assert (staked d1 = staked d /\ effective d1 = effective d) as [SE EE] by (rewrite DE1; auto).
  assert (staked d1 + n < U64) as ROOM by (clear - SE SGE SB2 HB; lia).
  set (dn := set_staked d1 (staked d1 + n)).
  destruct (resize_goes e ck sk _ w c d w1 c1 d1 dn l lmin PX NSC) as (w3 & R3 & T3 & O3 & DA3 & L3 & TO3); auto.
  { unfold dn. cbn. lia. }
  pose proof (go_touch _ _ _ _ _ _ _ _ G1) as TO1.
  assert (forall k, In k (st_source_auth a :: stake_cpi a) -> lam (get w3 k) = lam (get w k)) as L3'.
  { intros k IK. destruct (APA _ IK) as [K1 K2]. rewrite L3. destruct (N.eq_dec k (st_authority a)) as [E|NA].
    - rewrite E in IK |- *. rewrite (go_gain _ _ _ _ _ _ _ _ G1 eq_refl), (BAL IK). lia.
    - rewrite TO1; auto. simpl. intros [E|[E|[E|[]]]]; congruence. }
  assert (forall k m t, In k (stake_cpi a) -> usable e w k m t -> usable e w3 k m t) as LQ.
  { intros k m0 t0 IK LQ. destruct (APA _ (or_intror IK)). eapply usable_same; eauto. }
  destruct (stake_in_cpi a) as (I1 & I2 & I3 & I4 & I5 & I6 & I7).
  assert (st_vault a <> st_ptok a) as NVP.
  { intros E. destruct LV as (_ & X1 & _). rewrite E, PT2 in X1. injection X1 as ->. apply (not_pool_pda e ck (st_mint a) OK). congruence. }
  assert (forall k, In k (stake_cpi a) -> dat (get w3 k) = dat (get w k)) as DA3'.
  { intros k IK. destruct (APA _ (or_intror IK)). auto. }
  pose proof (MSS _ (proj1 (proj2 LS))) as SP1. destruct (MSV _ (proj1 (proj2 LV))) as [SP2 RV]. destruct (MSP _ PT2) as [PTF RP].
  assert (usable e w (st_ptok a) (st_mint a) pt) as LP by (unfold usable; auto).
  (* the transfer into the vault *)
  destruct (transfer_goes e (signed cx) w3 (st_source a) (st_mint a) (st_vault a) (st_source_auth a) n st vt m) as [s' R4]; auto.
  { now rewrite O3. } { rewrite DA3'; auto. }
  set (w4 := setd (setd w3 (st_source a) (DToken s')) (st_vault a) (DToken (set_t_amount vt (t_amount vt + n)))) in R4.
  assert (forall k, own (get w4 k) = own (get w k)) as O4 by (intros k; unfold w4; ws; auto).
  assert (forall k, lam (get w4 k) = lam (get w3 k)) as L4 by (intros k; unfold w4; now ws).
  assert (forall k, k <> st_source a -> k <> st_vault a -> dat (get w4 k) = dat (get w3 k)) as DA4.
  { intros k K1 K2. unfold w4. ws. keys; congruence. }
  assert (total_lamports w4 = total_lamports w) as T4 by (unfold w4; rewrite !total_setd; auto).
  assert (st_vhr a <> st_source a /\ st_vhr a <> st_vault a) as [NH1 NH2].
  { split; intros E; [destruct LS as (_ & X & _)|destruct LV as (_ & X & _)]; rewrite <- E, VHR, HH in X; discriminate. }
  assert (st_mint a <> st_source a /\ st_mint a <> st_vault a) as [NM1 NM2].
  { split; intros E; [destruct LS as (_ & X & _)|destruct LV as (_ & X & _)]; rewrite <- E, MD in X; discriminate. }
  destruct (deposit_goes e (with_pda cx (e_vault e ck)) w4 (st_pool a) (st_ptok a) (st_vhr a) (st_vault a) (st_mint a)
    (st_vault_pda a) (st_tokprog a) n (c_pool_acc cx mod U128) h (set_t_amount vt (t_amount vt + n)) pt m)
    as (w5 & R5 & DA5 & O5 & r & RL & L5); auto.
  { now rewrite O4. } { now rewrite VHR, PDA. } { now rewrite O4. }
  { rewrite DA4 by auto. rewrite DA3' by auto. now rewrite VHR. }
  { unfold with_pda. rewrite PDA, N.eqb_refl. apply orb_true_r. }
  { now rewrite O4. } { rewrite DA4, DA3' by auto. auto. }
  { destruct LV as (X1 & X2 & X3). unfold usable. rewrite O4. split; [auto|]. split; [|exact X3].
    unfold w4. ws. now rewrite N.eqb_refl. }
  { eapply usable_same; [apply (LQ _ _ _ I5 LP)|now rewrite O4, O3|apply DA4; auto]. }
  { cbn. lia. }
  { rewrite <- DE, <- HA. auto. }
  { unfold pool_owes in RW2. rewrite <- DE, <- HA. rewrite L4, L3' by (right; auto). auto. }
  { rewrite L4, L3' by (right; auto). exact (wf_lam _ _ (i_wf _ _ I)). }
  { now rewrite T4. }
  assert (forall co, stake_tokens e cx a co n w = Ok w5) as HND.
  { intros co. unfold stake_tokens. rewrite <- CK, <- SKE. cbv zeta. rewrite R1, bind_Ok, C1. cbn [unpack_config]. rewrite bind_Ok.
    rewrite require_true by now apply N.eqb_eq. rewrite require_true by (apply N.eqb_eq; rewrite CE1; exact VE).
    assert (forall k, In k (stake_cpi a) -> dat (get w1 k) = dat (get w k)) as DA1.
    { intros k IK. destruct (APA _ (or_intror IK)). now apply (go_dat _ _ _ _ _ _ _ _ G1). }
    destruct LV as (X1 & X2 & X3 & X4). rewrite DA1, X2 by auto. cbn [unpack_token]. rewrite bind_Ok.
    rewrite require_true by (rewrite VOW, N.eqb_refl; apply orb_true_r). rewrite require_true by now apply N.eqb_eq.
    rewrite DA1, MD by auto. cbn [unpack_mint]. rewrite bind_Ok. rewrite require_true by now apply N.ltb_lt.
    rewrite SD1, bind_Ok. rewrite (add64_lt _ _ ROOM). rewrite bind_Ok. fold dn.
    assert (match dat (get (put_del w1 sk dn) sk) with DVal v => (v_total v, v_min v) | DSol s => (s_lamports s, 0) | _ => (0, 0) end
      = (l, lmin)) as LM.
    { unfold put_del. ws. rewrite N.eqb_refl, D1.
      destruct LC as [(v & E & -> & ->)|(s & E & -> & ->)]; rewrite E; reflexivity. }
    rewrite LM, R3, bind_Ok.
    rewrite cpi_runs.
    2:{ intros IK. apply stake_incl1 in IK. now destruct (APA _ IK). }
    2:{ intros IK. apply stake_incl1 in IK. now destruct (APA _ IK). }
    2:{ apply lam_sum_same. intros k IK. apply L3', stake_incl1, IK. }
    rewrite R4, bind_Ok. rewrite cpi_runs.
    2:{ intros IK. apply stake_incl2 in IK. now destruct (APA _ IK). }
    2:{ intros IK. apply stake_incl2 in IK. now destruct (APA _ IK). }
    2:{ apply lam_sum_same. intros k IK. rewrite L4. apply L3', stake_incl2, IK. }
    exact R5. }
  exists w5. unfold run.
  assert (handler e cx ca w = Ok w5) as HD.
  { assert (load_config e w ck = Ok c) as LC1.
    { unfold load_config. rewrite require_true by (apply N.eqb_eq; apply C). now rewrite (proj2 C). }
    apply del_of_ok in SD as [(v & E & Ed)|(s & E & Ed)]; rewrite E in CALL; cbn in CALL; injection CALL as <-; unfold handler;
      rewrite E in SB; simpl in SB.
    - unfold validator_stake_tokens. rewrite <- CK, <- SKE, LC1, bind_Ok. unfold load_val.
      rewrite require_true by now apply N.eqb_eq. rewrite E. cbn [unpack_val]. rewrite bind_Ok.
      rewrite require_true by (now apply N.eqb_eq). rewrite bind_Ok. auto.
    - unfold sol_staker_stake_tokens. rewrite <- CK, <- SKE, LC1, bind_Ok. unfold load_sol.
      rewrite require_true by now apply N.eqb_eq. rewrite E. cbn [unpack_sol]. rewrite bind_Ok.
      rewrite require_true by (now apply N.eqb_eq). rewrite bind_Ok. auto. }
  rewrite HD, bind_Ok.
  rewrite (runtime_check_touches cx (ck :: sk :: st_authority a ::
    [st_source a; st_vault a; st_pool a; st_ptok a; st_vhr a; st_vault_pda a]) w w5); [reflexivity| | |auto].
  - intros k NI. simpl in NI. assert (get w1 k = get w k) as E1.
    { apply TO1. intros IK. apply NI. clear - IK. simpl in IK. tauto. }
    apply account_ext.
    + rewrite L5, pay_lam_other; [|intros E; apply NI; clear - E; subst k; tauto..]. rewrite L4, L3, E1. auto.
    + now rewrite O5, O4.
    + rewrite DA5, DA4, DA3; auto; intros E; apply NI; clear - E; subst k; tauto.
  - rewrite (total_pay w4 w5 _ _ _ RL L5). exact T4.
Qed.

(** ** Unstaking: sufficiency *)
Lemma withdraw_goes e sig w pool ptok vhr tacc mnt owner tp n acc h t p m :
  pool = e_pool e mnt -> own (get w pool) = e_rewards e -> vhr = e_holder e owner -> own (get w vhr) = e_rewards e ->
  dat (get w vhr) = DHolder h -> sig owner = true -> tp = e_token e ->
  own (get w mnt) = e_token e -> dat (get w mnt) = DMint m ->
  usable e w tacc mnt t -> t_owner t = owner -> usable e w ptok mnt p -> t_owner p = pool -> may_spend p pool n -> tacc <> ptok ->
  h_deposited h <= t_amount p -> 0 < h_deposited h -> n <= h_deposited h -> h_deposited h < U64 -> t_amount t + n < U64 ->
  since acc (h_last h) * h_deposited h < U128 -> since acc (h_last h) * h_deposited h / 10 ^ 18 < U64 ->
  total_lamports w < U64 ->
  exists w', rewards_withdraw e sig w pool ptok vhr tacc mnt owner tp n acc = Ok w' /\
    usable e w' tacc mnt (set_t_amount t (t_amount t + n)) /\
    (forall k, k <> vhr -> k <> tacc -> k <> ptok -> dat (get w' k) = dat (get w k)) /\
    (forall k, own (get w' k) = own (get w k)) /\
    exists r, r <= lam (get w pool) /\ (forall k, lam (get w' k) = pay_lam w pool owner r k).
Proof.
  intros PE PO VE VO Hh SG TP MO MD LT Tw LP Pw MSP NE DP N0 ND HB RM R1 R2 TT. unfold rewards_withdraw.
  pose proof LT as (To & Td & Tm & Tf). pose proof LP as (Po & Pd & Pm & Pf).
  unfold rewards_checked. rewrite require_true by (rewrite PE at 1; rewrite PO; now rewrite !N.eqb_refl).
  rewrite (token_at_runs _ _ _ _ Po Pd), bind_Ok. rewrite require_true by now rewrite Pw, Pm, !N.eqb_refl.
  rewrite require_true by auto. rewrite require_true by (rewrite VE at 1; rewrite VO; now rewrite !N.eqb_refl).
  rewrite Hh, bind_Ok. rewrite (token_at_runs _ _ _ _ To Td), bind_Ok. rewrite require_true by now rewrite Tw, Tm, !N.eqb_refl.
  rewrite require_true by now apply N.eqb_eq. cbv zeta.
  assert ((if n =? U64 - 1 then h_deposited h else n) = n) as AM. { destruct (N.eqb_spec n (U64 - 1)); lia. }
  rewrite AM. rewrite bind_Ok. rewrite require_true.
  2:{ rewrite (proj2 (N.leb_le _ _) DP). destruct (N.eqb_spec (h_deposited h) 0); [lia|reflexivity]. }
  rewrite require_true by now apply N.leb_le.
  destruct (pool_reward_runs _ _ _ R1 R2) as [r Er]. rewrite Er, bind_Ok.
  set (w1 := setd w vhr _).
  assert (vhr <> tacc) as N1 by congruence. assert (vhr <> ptok) as N2 by congruence. assert (vhr <> mnt) as N3 by congruence.
  assert (usable e w1 ptok mnt p) as L1 by (apply usable_setd; auto).
  assert (usable e w1 tacc mnt t) as L2' by (apply usable_setd; auto).
  destruct (transfer_goes e (fun k => k =? pool) w1 ptok mnt tacc pool n p t m L1 L2' ltac:(auto)) as [s' TR]; auto.
  { unfold w1; ws; auto. } { unfold w1. ws. destruct (N.eqb_spec vhr mnt); [congruence|auto]. } { apply N.eqb_refl. } { lia. }
  rewrite TR, bind_Ok. set (w2 := setd (setd w1 ptok _) tacc _).
  assert (forall k, lam (get w2 k) = lam (get w k)) as L2 by (intros k; unfold w2, w1; now ws).
  set (r' := if r <=? pool_available e w pool then r else 0).
  assert (r' <= lam (get w pool)) as RL.
  { unfold r'. destruct (N.leb_spec r (pool_available e w pool)) as [L|_]; [|lia]. unfold pool_available in L. lia. }
  destruct (pool_pay_runs w2 pool owner r') as [w' P]; [now rewrite L2|rewrite (total_same w w2); auto|].
  exists w'. split; [exact P|]. apply pool_pay_ok in P as (Q0 & Q1 & Q2 & Q3 & Q4).
  assert (forall k, own (get w2 k) = own (get w k)) as O2 by (intros k; unfold w2, w1; now ws).
  split; [|split; [|split]].
  - repeat split; auto; try (rewrite ?Q1, ?Q2; unfold w2, w1; ws; auto). now rewrite N.eqb_refl.
  - intros k K1 K2 K3. rewrite Q2. unfold w2, w1. ws. keys; congruence.
  - intros k. now rewrite Q1, O2.
  - exists r'. split; [auto|]. intros k. rewrite Q3. unfold pay_lam. now rewrite !L2.
Qed.

Lemma unstake_can e cx a n w c d : env_ok e -> inv e w -> total_lamports w < U64 ->
  needs_unstake e cx w a n c d -> more_unstake e cx w a n ->
  un_authority a <> un_config a -> un_dest a <> un_ptok a ->
  (forall k, In k (writes (CUnstakeTokens a n)) -> writable cx k = true) -> exists w', run e cx (CUnstakeTokens a n) w = Ok w'.
Proof.
  intros OK I TT ND MR NAC ND2 WR. cbn [writes] in WR.
  destruct ND as [C (S & AU & VHR & (h & HH) & PAY) CAPS SG (VE & PDA & vt & LV & VOW) (MO & m & MD) (PE & PO & VHO & pt & PT1 & PT2 & PT3 & PT4) TP
    (ND0 & DPOS & pt' & PT2' & DP) (ND1 & dt & LD) (NST & NM & CD)].
  rewrite PT2 in PT2'. injection PT2' as <-.
  destruct MR as [[APA BAL] MSV MSP MSD [RW1 RW2]].
  remember (un_config a) as ck eqn:CK. remember (un_stake a) as sk eqn:SKE. rewrite VHR in HH.
  pose proof (ready_inv _ _ _ _ _ I C HH TT) as RY.
  destruct (harvest_goes e ck w c sk d (un_authority a) (un_vhr a) None OK RY C S AU NAC ltac:(discriminate) VHR) as
    (w1 & R1 & H1 & G1 & ac & ho & D1 & a' & l' & C1); [lia|].
  pose proof S as S'. apply stake_of_some in S' as (SO & SD & SB).
  destruct (sane_cfg _ _ (i_sane _ _ I) _ _ C) as (NPC & BPS & _ & VPO & VPD).
  assert (sk <> ck) as NSC. { intros ->. rewrite (proj2 C) in SD. discriminate. }
  set (d1 := set_lasts d ho ac) in *. set (c1 := set_cfg_last (set_cfg_acc c a') l') in *.
  assert (del_of (dat (get w1 sk)) = Ok d1) as SD1 by (rewrite D1; eapply del_of_upd'; eauto).
  assert (config_at e w1 ck c1) as CA1 by (split; [rewrite (go_own _ _ _ _ _ _ _ _ G1); apply C|auto]).
  assert (stake_of e w1 ck sk = Some d1) as S1.
  { apply stake_of_intro; [rewrite (go_own _ _ _ _ _ _ _ _ G1); auto|auto|].
    refine (same_id_belongs _ _ _ _ _ _ SB). rewrite D1. apply (same_id_upd _ _ _ SD); reflexivity. }
  pose proof (go_ready _ _ _ _ _ _ _ _ G1) as RY1.
  destruct (ready_room _ _ _ _ _ _ RY1 CA1 S1) as [RM1 RM2].
  destruct (load_any_runs _ _ _ _ _ S) as (l & lmin & LA & LC).
  pose proof (wf_dat _ sk (i_wf _ _ I)) as WD.
  assert (wf_del d) as WFD.
  { apply del_of_ok in SD as [(v & E & <-)|(s & E & <-)]; rewrite E in WD; cbn in WD; tauto. }
  assert (N.max l lmin < U64 /\ cap (N.max l lmin) < U64) as [LB1 LB2].
  { exact (limits_fit _ WD CAPS _ _ LC). }
  assert (n <= staked d) as NS by exact NST.
  assert (n <= h_deposited h /\ 0 < h_deposited h /\ h_deposited h < U64 /\ deposit e w ck = h_deposited h) as (NH & HP & HB & DE).
  { pose proof (i_backed _ _ I ck) as B. unfold deposit in *. rewrite HH in *.
    pose proof (wf_dat _ (e_holder e (e_vault e ck)) (i_wf _ _ I)) as W.
    rewrite HH in W. simpl in W. split; [lia|]. split; [auto|]. split; [tauto|auto]. }
  assert (holder_acc e w ck = h_last h) as HA by (unfold holder_acc; now rewrite HH).
  set (dn := set_cooldown (set_staked d1 (staked d - n)) (sat_add64 (c_now cx) (cfg_cooldown c))).
  set (w2 := put_del w1 sk dn).
  assert (dat (get w2 ck) = DConfig c1) as C2.
  { unfold w2, put_del. ws. destruct (N.eqb_spec sk ck); [congruence|auto]. }
  assert (del_of (dat (get w2 sk)) = Ok dn) as SD2.
  { unfold w2, put_del. ws. rewrite N.eqb_refl. eapply del_of_upd'; eauto. }
  destruct (sync_runs w2 ck sk l lmin c1 dn) as [w3 R3]; auto.
  { unfold dn. cbn [effective staked set_cooldown set_staked]. unfold d1, c1 in *.
    cbn [effective staked set_lasts cfg_effective set_cfg_last set_cfg_acc] in *. lia. }
  pose proof (sync_effective_ok _ _ _ _ _ _ R3) as Y3.
  assert (total_lamports w3 = total_lamports w) as T3.
  { rewrite (proj1 (frozen_resync _ _ _ _ _ Y3)). unfold w2, put_del. rewrite total_setd. apply (go_tot _ _ _ _ _ _ _ _ G1). }
  assert (forall k, own (get w3 k) = own (get w k)) as O3.
  { intros k. destruct Y3. rewrite Ho. unfold w2, put_del. ws. apply (go_own _ _ _ _ _ _ _ _ G1). }
  assert (forall k, k <> ck -> k <> sk -> dat (get w3 k) = dat (get w k)) as DA3.
  { intros k N1 N2. destruct Y3. rewrite Hdat. keys; try congruence. unfold w2, put_del. ws. keys; try congruence.
    now apply (go_dat _ _ _ _ _ _ _ _ G1). }
  assert (forall k, lam (get w3 k) = lam (get w1 k)) as L3.
  { intros k. destruct Y3. rewrite Hlams. unfold w2, put_del. now ws. }
  assert (forall k, In k (unstake_cpi a) -> lam (get w3 k) = lam (get w k)) as L3''.
  { intros k IK. destruct (APA _ IK) as [K1 K2]. rewrite L3. destruct (N.eq_dec k (un_authority a)) as [E|NA].
    - rewrite E in IK |- *. rewrite (go_gain _ _ _ _ _ _ _ _ G1 eq_refl), (BAL IK). lia.
    - rewrite (go_touch _ _ _ _ _ _ _ _ G1); auto. simpl. intros [E|[E|[E|[]]]]; congruence. }
  assert (forall k m t, In k (unstake_cpi a) -> usable e w k m t -> usable e w3 k m t) as LQ.
  { intros k m0 t0 IK LQ. destruct (APA _ IK). eapply usable_same; eauto. }
  destruct (cpi_in a) as (I1 & I2 & I3 & I4 & I5 & I6 & I7).
  assert (un_vault a <> un_ptok a) as NVP.
  { intros E. destruct LV as (_ & X1 & _). rewrite E, PT2 in X1. injection X1 as ->. apply (not_pool_pda e ck (un_mint a) OK). congruence. }
  destruct (MSV _ (proj1 (proj2 LV))) as [SPV RV]. destruct (MSP _ PT2) as [PTF SPP]. pose proof (MSD _ (proj1 (proj2 LD))) as RD.
  assert (usable e w (un_ptok a) (un_mint a) pt) as LP by (unfold usable; auto).
  destruct (withdraw_goes e (with_pda cx (e_vault e ck)) w3 (un_pool a) (un_ptok a) (un_vhr a) (un_vault a) (un_mint a)
    (un_vault_pda a) (un_tokprog a) n (c_pool_acc cx mod U128) h vt pt m) as (w4 & R4 & LV4 & DA4 & O4 & r & RL & L4); auto.
  { now rewrite O3. } { now rewrite VHR, PDA. } { now rewrite O3. }
  { rewrite DA3 by now apply APA. now rewrite VHR. }
  { unfold with_pda. rewrite PDA, N.eqb_refl. apply orb_true_r. }
  { now rewrite O3. } { rewrite DA3 by now apply APA. auto. } { rewrite <- DE. auto. }
  { unfold pool_computes in RW1. rewrite <- DE, <- HA. auto. } { unfold pool_owes in RW2. rewrite <- DE, <- HA. auto. } { now rewrite T3. }
  assert (un_vhr a <> un_dest a) as NHD. { intros E. destruct LD as (_ & X & _). rewrite <- E, VHR, HH in X. discriminate. }
  assert (un_vhr a <> un_mint a) as NHM. { intros E. rewrite <- E, VHR, HH in MD. discriminate. }
  assert (exists s5, token_transfer e (with_pda cx (e_vault e ck)) w4 (un_vault a) (un_mint a) (un_dest a) (un_vault_pda a) n =
    Ok (setd (setd w4 (un_vault a) (DToken s5)) (un_dest a) (DToken (set_t_amount dt (t_amount dt + n))))) as [s5 R5].
  { assert (usable e w4 (un_dest a) (un_mint a) dt) as LD4.
    { eapply usable_same; [apply (LQ _ _ _ I7 LD)|apply O4|apply DA4; auto]. }
    assert (un_vault a <> un_mint a /\ un_ptok a <> un_mint a) as [NM1 NM2].
    { destruct LV as (_ & X1 & _). split; intros E; [rewrite <- E, X1 in MD|rewrite <- E, PT2 in MD]; discriminate. }
    apply (transfer_goes e (with_pda cx (e_vault e ck)) w4 (un_vault a) (un_mint a) (un_dest a) (un_vault_pda a) n _ dt m LV4 LD4); auto.
    - now rewrite O4, O3.
    - rewrite DA4, DA3; auto; now apply APA.
    - unfold with_pda. rewrite PDA, N.eqb_refl. apply orb_true_r.
    - cbn. lia. }
  set (w5 := setd (setd w4 (un_vault a) (DToken s5)) (un_dest a) (DToken (set_t_amount dt (t_amount dt + n)))) in R5.
  exists w5. unfold run.
  assert (unstake_tokens e cx a n w = Ok w5) as HND.
  { unfold unstake_tokens, load_config. rewrite <- CK, <- SKE. rewrite require_true by (apply N.eqb_eq; apply C).
    rewrite (proj2 C). cbn [unpack_config]. rewrite bind_Ok. rewrite require_true by now apply N.eqb_eq.
    rewrite require_true by (apply negb_true_iff, N.eqb_neq; auto).
    destruct LV as (X1 & X2 & X3 & _). rewrite X2. cbn [unpack_token]. rewrite bind_Ok. cbv zeta.
    rewrite require_true by now apply N.eqb_eq. rewrite require_true by now apply N.eqb_eq.
    rewrite LA, bind_Ok. rewrite require_true by apply N.eqb_refl. rewrite require_true by auto.
    rewrite SD, bind_Ok. rewrite require_true by now apply N.eqb_eq. rewrite require_true by now apply N.eqb_eq.
    rewrite MD. cbn [unpack_mint]. rewrite bind_Ok. rewrite R1, bind_Ok, SD1, bind_Ok, C1. cbn [unpack_config]. rewrite bind_Ok.
    rewrite require_true by now apply N.leb_le. rewrite require_true by now apply N.leb_le.
    unfold d1, c1. cbn [staked set_lasts cfg_bps set_cfg_last set_cfg_acc cfg_cooldown]. rewrite maxdeact_eq by (try apply WFD; auto).
    rewrite bind_Ok. rewrite require_true by now apply N.leb_le. rewrite csub_le by auto. rewrite bind_Ok.
    fold d1. fold dn. fold w2. rewrite R3, bind_Ok.
    rewrite cpi_runs.
    2:{ intros IK. apply cpi_incl1 in IK. now destruct (APA _ IK). }
    2:{ intros IK. apply cpi_incl1 in IK. now destruct (APA _ IK). }
    2:{ apply lam_sum_same. intros k IK. apply L3'', cpi_incl1, IK. }
    rewrite R4, bind_Ok. rewrite cpi_runs.
    2:{ intros IK. apply cpi_incl2 in IK. now destruct (APA _ IK). }
    2:{ intros IK. apply cpi_incl2 in IK. now destruct (APA _ IK). }
    2:{ rewrite (lam_sum_pay w3 w4 (un_pool a) (un_vault_pda a) r); auto; try (apply in_or_app; left; clear; simpl; tauto).
        apply lam_sum_same. intros k IK. apply L3'', cpi_incl2, IK. }
    exact R5. }
  unfold handler. rewrite HND, bind_Ok.
  rewrite (runtime_check_touches cx (ck :: sk :: un_authority a :: un_dest a ::
    [un_pool a; un_ptok a; un_vhr a; un_vault a; un_vault_pda a]) w w5); [reflexivity| | |auto].
  - intros k NI. simpl in NI. assert (get w1 k = get w k) as E1.
    { apply (go_touch _ _ _ _ _ _ _ _ G1). intros IK. apply NI. clear - IK. simpl in IK. tauto. }
    apply account_ext.
    + unfold w5. ws. rewrite L4, pay_lam_other; [|intros E; apply NI; clear - E; subst k; tauto..]. rewrite L3, E1. auto.
    + unfold w5. ws. now rewrite O4, O3.
    + unfold w5. ws. destruct (N.eqb_spec (un_dest a) k) as [E|_]; [exfalso; apply NI; clear - E; subst k; tauto|].
      destruct (N.eqb_spec (un_vault a) k) as [E|_]; [exfalso; apply NI; clear - E; subst k; tauto|].
      rewrite DA4, DA3; auto; intros E; apply NI; clear - E; subst k; tauto.
  - unfold w5. rewrite !total_setd. rewrite (total_pay w3 w4 _ _ _ RL L4). exact T3.
Qed.

(** ** Slashing: sufficiency *)
Lemma burn_goes e sig w src mnt auth n s m : usable e w src mnt s -> own (get w mnt) = e_token e ->
  dat (get w mnt) = DMint m -> sig auth = true -> may_spend s auth n -> n <= t_amount s -> n <= m_supply m ->
  exists s', token_burn e sig w src mnt auth n =
    Ok (setd (setd w src (DToken s')) mnt (DMint (Mnt (m_supply m - n) (m_decimals m)))).
Proof.
  intros (So & Sd & Sm & Sf) Mo Md SG MSP LE LM. unfold token_burn.
  rewrite (token_at_runs _ _ _ _ So Sd), bind_Ok, (mint_at_runs _ _ _ _ Mo Md), bind_Ok.
  rewrite require_true by now rewrite Sf. rewrite require_true by now apply N.leb_le. rewrite require_true by now apply N.eqb_eq.
  destruct (spend_authorise sig s auth n SG MSP) as [s' ->]. rewrite bind_Ok. rewrite require_true by now apply N.leb_le. cbv zeta. eauto.
Qed.
Lemma slash_can e cx a n w c d ca : env_ok e -> inv e w -> total_lamports w < U64 ->
  needs_slash e cx w a n c d -> more_slash e w a n d -> slash_call (dat (get w (sl_stake a))) a n = Some ca ->
  sl_authority a <> sl_config a -> (forall k, In k (writes ca) -> writable cx k = true) -> exists w', run e cx ca w = Ok w'.
Proof.
  intros OK I TT ND MR CALL NAC WR0.
  destruct ND as [C (S & AU & VHR & (h & HH) & PAY) CAPS (SLE & SLN & SLS) (VE & PDA & vt & LV2 & LV3) TP N0 BU].
  assert (forall k, In k [sl_config a; sl_stake a; sl_authority a; sl_vault a; sl_mint a] -> writable cx k = true) as WR.
  { intros k IK. apply WR0. destruct (dat (get w (sl_stake a))); simpl in CALL; try discriminate; injection CALL as <-; exact IK. }
  clear WR0. remember (sl_config a) as ck eqn:CK. remember (sl_stake a) as sk eqn:SKE. rewrite VHR in HH.
  pose proof (ready_inv _ _ _ _ _ I C HH TT) as RY.
  assert (affordable e w ck (fun k => k = sk)) as PAY'.
  { exists [sk]. split; [apply NoDup_singleton|]. split; [intros x ->; left; auto|]. simpl. lia. }
  destruct (prefix_goes e ck w c sk d (sl_authority a) (sl_vhr a) OK RY C S AU NAC VHR PAY') as (w1 & c1 & d1 & R1 & PX).
  pose proof PX as [G1 C1 (ca1 & cl1 & CE1) SD1 (dh1 & da1 & DE1 & D1) S1 [RM1 RM2]].
  pose proof S as S'. apply stake_of_some in S' as (SO & SD & SB).
  destruct (sane_cfg _ _ (i_sane _ _ I) _ _ C) as (NPC & _ & BUM & VPO & VPD).
  assert (sk <> ck) as NSC. { intros ->. rewrite (proj2 C) in SD. discriminate. }
  destruct (load_any_runs _ _ _ _ _ S) as (l & lmin & LA & LC).
  pose proof (wf_dat _ sk (i_wf _ _ I)) as WD.
  destruct (limits_fit _ WD CAPS _ _ LC) as [LB1 LB2].
  assert (staked d1 = staked d /\ effective d1 = effective d) as [SE EE] by (rewrite DE1; auto).
  remember (N.min n (staked d)) as x eqn:XE in *.
  assert (x <= staked d) as XL by (clear - XE; lia).
  set (dn := set_staked d1 (staked d1 - x)).
  assert (staked dn <= staked d) as SLE2 by (unfold dn; cbn; lia).
  assert (cfg_effective c - effective d + staked dn < U64) as ROOM by (pose proof (re_sum _ _ _ RY); clear - RM2 H SLE2; lia).
  assert (sl_vault a <> ck /\ sl_vault a <> sk) as (K1 & K2).
  { split; intros E; rewrite E in LV2; [destruct C; congruence|]. rewrite LV2 in SD. discriminate. }
  pose proof (go_touch _ _ _ _ _ _ _ _ G1) as TO1.
  assert (forall k, k <> ck -> k <> sk -> dat (get w1 k) = dat (get w k)) as DA1 by apply (go_dat _ _ _ _ _ _ _ _ G1).
  set (w2 := put_del w1 sk dn).
  assert (forall k, own (get w2 k) = own (get w k)) as O2.
  { intros k. unfold w2, put_del. ws. apply (go_own _ _ _ _ _ _ _ _ G1). }
  assert (forall k, k <> ck -> k <> sk -> dat (get w2 k) = dat (get w k)) as DA2.
  { intros k A B. unfold w2, put_del. ws. destruct (N.eqb_spec sk k); [congruence|auto]. }
  assert (forall k, lam (get w2 k) = lam (get w1 k)) as L2 by (intros k; unfold w2, put_del; now ws).
  assert (exists w3, (if 0 <? x then
      let* _ := unpack_mint (dat (get w2 (sl_mint a))) in
      let* _ := cpi_check w w2 [ck; sk] [sl_vault a; sl_mint a; sl_vault_auth a] in
      token_burn e (with_pda cx (sl_vault_auth a)) w2 (sl_vault a) (sl_mint a) (sl_vault_auth a) x
    else Ok w2) = Ok w3 /\ (forall k, own (get w3 k) = own (get w2 k)) /\ (forall k, lam (get w3 k) = lam (get w2 k)) /\
    dat (get w3 ck) = dat (get w2 ck) /\ dat (get w3 sk) = dat (get w2 sk) /\
    (forall k, k <> sl_vault a -> k <> sl_mint a -> dat (get w3 k) = dat (get w2 k))) as (w3 & R3 & O3 & L3 & DC3 & DS3 & DA3).
  { destruct (N.ltb_spec 0 x) as [XP|XP]; [|exists w2; auto 8].
    assert (0 < staked d) as SP by (clear - XP XL; lia).
    destruct (BU SP) as ((MO & m & MD) & t & UT & _ & AMT). destruct (MR SP) as ([APA BAL] & MSV & MSM).
    rewrite <- CK, <- SKE in APA, BAL. rewrite <- XE in *. pose proof (MSV _ (proj1 (proj2 UT))) as MSP. pose proof (MSM _ MD) as SUP.
    destruct (APA (sl_mint a)) as [K3 K4]; [simpl; tauto|].
    rewrite DA2, MD by auto. cbn [unpack_mint]. rewrite bind_Ok.
    rewrite cpi_runs.
    - destruct (burn_goes e (with_pda cx (sl_vault_auth a)) w2 (sl_vault a) (sl_mint a) (sl_vault_auth a) x t m) as [s' ->]; auto.
      + apply (usable_same e w w2); auto.
      + now rewrite O2.
      + rewrite DA2; auto.
      + unfold with_pda. rewrite N.eqb_refl. apply orb_true_r.
      + eexists. split; [reflexivity|]. split; [intros k; now ws|]. split; [intros k; now ws|].
        split; [ws; keys; congruence|]. split; [ws; keys; congruence|]. intros k A B. ws. keys; congruence.
    - intros IK. now destruct (APA _ IK).
    - intros IK. now destruct (APA _ IK).
    - apply lam_sum_same. intros k IK. destruct (APA _ IK) as [A B]. rewrite L2. destruct (N.eq_dec k (sl_authority a)) as [E|NA].
      + rewrite E in IK |- *. rewrite (go_gain _ _ _ _ _ _ _ _ G1 eq_refl), (BAL IK). lia.
      + rewrite TO1; auto. simpl. intros [E|[E|[E|[]]]]; congruence. }
  destruct (sync_runs w3 ck sk l lmin c1 dn) as [w4 R4].
  { rewrite DC3. unfold w2, put_del. ws. destruct (N.eqb_spec sk ck); [congruence|auto]. }
  { rewrite DS3. unfold w2, put_del. ws. rewrite N.eqb_refl. eapply del_of_upd'; eauto. }
  { unfold dn. rewrite CE1. cbn. rewrite EE. auto. }
  { replace (effective dn) with (effective d) by (unfold dn; cbn; auto).
    replace (cfg_effective c1) with (cfg_effective c) by now rewrite CE1. auto. }
  { auto. } { auto. }
  assert (slash_stake e cx a c l lmin n w = Ok w4) as HND.
  { unfold slash_stake. rewrite <- CK, <- SKE. rewrite BUM, (ok_bump e OK), bind_Ok. rewrite require_true by now apply N.eqb_eq.
    rewrite PDA at 1. rewrite R1, bind_Ok, C1. cbn [unpack_config]. rewrite bind_Ok.
    assert (cfg_slash c1 = cfg_slash c /\ cfg_vault c1 = cfg_vault c) as [-> ->] by now rewrite CE1.
    rewrite require_true by (now apply negb_true_iff, N.eqb_neq). rewrite require_true by now apply N.eqb_eq.
    rewrite require_true by auto. rewrite require_true by now apply N.eqb_eq.
    rewrite DA1, LV2 by auto. cbn [unpack_token]. rewrite bind_Ok. rewrite require_true by now apply N.eqb_eq.
    unfold process_slash_for_delegation. rewrite <- CK, <- SKE.
    rewrite require_true by now apply N.eqb_eq. rewrite require_true by now apply N.ltb_lt.
    rewrite SD1, bind_Ok. cbv zeta. rewrite SE, <- XE. rewrite csub_le by auto. rewrite bind_Ok. rewrite <- SE. fold dn. fold w2.
    cbv zeta in R3. rewrite R3, bind_Ok. exact R4. }
  exists w4. unfold run.
  assert (handler e cx ca w = Ok w4) as HD.
  { assert (load_config e w ck = Ok c) as LC1.
    { unfold load_config. rewrite require_true by (apply N.eqb_eq; apply C). now rewrite (proj2 C). }
    apply del_of_ok in SD as [(v & E & Ed)|(s & E & Ed)]; rewrite E in CALL; cbn in CALL; injection CALL as <-; unfold handler;
      rewrite E in SB; simpl in SB.
    - unfold slash_validator_stake. rewrite <- CK, <- SKE, LC1, bind_Ok. unfold load_val.
      rewrite require_true by now apply N.eqb_eq. rewrite E. cbn [unpack_val]. rewrite bind_Ok.
      rewrite require_true by (now apply N.eqb_eq). rewrite bind_Ok.
      destruct LC as [(v' & E' & -> & ->)|(s' & E' & _)]; rewrite E in E'; [|discriminate]. injection E' as <-. auto.
    - unfold slash_sol_staker_stake. rewrite <- CK, <- SKE, LC1, bind_Ok. unfold load_sol.
      rewrite require_true by now apply N.eqb_eq. rewrite E. cbn [unpack_sol]. rewrite bind_Ok.
      rewrite require_true by (now apply N.eqb_eq). rewrite bind_Ok.
      destruct LC as [(v' & E' & _)|(s' & E' & -> & ->)]; rewrite E in E'; [discriminate|]. injection E' as <-. auto. }
  rewrite HD, bind_Ok. apply sync_effective_ok in R4.
  rewrite (runtime_check_touches cx [ck; sk; sl_authority a; sl_vault a; sl_mint a] w w4); [reflexivity| | |auto].
  - intros k NI. simpl in NI. assert (get w1 k = get w k) as E1.
    { apply TO1. intros IK. apply NI. clear - IK. simpl in IK. tauto. }
    assert (k <> ck /\ k <> sk /\ k <> sl_vault a /\ k <> sl_mint a) as (Q1 & Q2 & Q3 & Q4)
      by (clear - NI; repeat split; intros E; apply NI; subst k; tauto).
    destruct R4. apply account_ext.
    + rewrite Hlams, L3, L2, E1. auto.
    + now rewrite Ho, O3, O2.
    + rewrite Hdat. destruct (N.eqb_spec ck k); [congruence|]. destruct (N.eqb_spec sk k); [congruence|]. rewrite DA3, DA2; auto.
  - rewrite (proj1 (frozen_resync _ _ _ _ _ R4)). rewrite (total_same w2 w3) by auto. unfold w2, put_del. rewrite total_setd.
    apply (go_tot _ _ _ _ _ _ _ _ G1).
Qed.
