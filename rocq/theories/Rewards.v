(** How the reward accumulators move. *)
From Verif Require Import Base Types Layout Instr Math External Processor Runtime History Spec SpecReward
  WorldLemmas Effects Handlers Evolve Sane Wf Totals Arith Nets Caps Stakers Deposits Inv Life Gov Flow.

Lemma since_wsub a b : wsub128 a b = since a b.
Proof.
  unfold since, wsub128. apply N2Z.inj. rewrite Z2N.id by (apply Z.mod_pos_bound; lia).
  assert (b mod U128 < U128) by (apply N.mod_lt; lia).
  rewrite N2Z.inj_mod, N2Z.inj_sub, N2Z.inj_add by lia. rewrite N2Z.inj_mod by lia.
  change (Z.of_N U128) with (2 ^ 128)%Z.
  rewrite <- (Z.mod_add (Z.of_N a - Z.of_N b) 1) by lia.
  rewrite Zminus_mod, Z.mod_mod, <- Zminus_mod by lia. f_equal. lia.
Qed.
Lemma since_same a : since a a = 0.
Proof. unfold since. rewrite Z.sub_diag. reflexivity. Qed.
Lemma acc_now_rpt l c rpt : cfg_acc c < U128 ->
  calculate_stake_rewards_per_token (l - cfg_last c) (cfg_effective c) = Ok rpt ->
  wadd128 (cfg_acc c) rpt = acc_now l c.
Proof.
  intros A H. unfold acc_now. destruct (rpt_ok _ _ _ H) as [[T R]|(T & R & _)].
  - rewrite T, R. simpl. unfold wadd128. rewrite N.add_0_r. apply mod_small128; auto.
  - destruct (N.eqb_spec (cfg_effective c) 0); [contradiction|]. subst rpt. reflexivity.
Qed.
Lemma acc_now_lt l c : cfg_acc c < U128 -> acc_now l c < U128.
Proof. intros. unfold acc_now. destruct (_ =? _); [auto|]. apply N.mod_lt. lia. Qed.
Lemma acc_now_seen l c : cfg_acc c < U128 -> l <= cfg_last c -> acc_now l c = cfg_acc c.
Proof.
  intros A L. unfold acc_now. destruct (N.eqb_spec (cfg_effective c) 0) as [|NZ]; [auto|].
  replace (l - cfg_last c) with 0 by lia. change (0 * 10 ^ 18) with 0. rewrite N.div_0_l by auto. rewrite N.add_0_r. apply mod_small128; auto.
Qed.
Lemma reading_claims e w ck sk c d h rpt sr hr : cfg_acc c < U128 ->
  reading e w ck (e_vault e ck) sk c d h rpt sr hr ->
  sr = stake_claim w ck c d /\ hr = holder_claim e w ck d /\ sr < U64 /\ hr < U64 /\
  wadd128 (cfg_acc c) rpt = acc_now (lam (get w ck)) c /\ h_last h = holder_acc e w ck.
Proof.
  intros A R. pose proof (acc_now_rpt _ _ _ A (rd_r _ _ _ _ _ _ _ _ _ _ _ R)) as E.
  assert (h_last h = holder_acc e w ck) as EH by (unfold holder_acc; now rewrite (rd_h _ _ _ _ _ _ _ _ _ _ _ R)).
  pose proof (rd_sr _ _ _ _ _ _ _ _ _ _ _ R) as S. pose proof (rd_hr _ _ _ _ _ _ _ _ _ _ _ R) as H.
  apply eligible_ok in S as [S S2]. apply eligible_ok in H as [H H2]. rewrite E, since_wsub in S. rewrite EH, since_wsub in H. auto 10.
Qed.

(** ** Lamport totals *)
Lemma total_same w w' : (forall k, lam (get w' k) = lam (get w k)) -> total_lamports w' = total_lamports w.
Proof. intros L. rewrite !total_lamports_wsum. now apply wsum_eq. Qed.
Lemma total_setl w k n : total_lamports (setl w k n) + lam (get w k) = total_lamports w + n.
Proof.
  rewrite !total_lamports_wsum.
  pose proof (wsum_upd (fun _ a => lam a) (fun _ a => lam a) (fun _ => eq_refl) (fun _ => eq_refl) w (setl w k n) k) as U.
  cbv beta in U. rewrite U; [ws; now rewrite N.eqb_refl|]. intros x NE. ws. destruct (N.eqb_spec k x); congruence.
Qed.
Lemma total_setd w k D : total_lamports (setd w k D) = total_lamports w.
Proof. apply total_same. intros. now ws. Qed.
Lemma total_put_del w k D : total_lamports (put_del w k D) = total_lamports w.
Proof. apply total_same. intros. now ws. Qed.
Lemma total_pay w w' pool owner r : r <= lam (get w pool) ->
  (forall k, lam (get w' k) = pay_lam w pool owner r k) -> total_lamports w' = total_lamports w.
Proof.
  intros R L. unfold pay_lam in L. destruct (N.eqb_spec r 0); [now apply total_same|].
  set (w1 := setl w pool (lam (get w pool) - r)).
  set (w2 := setl w1 owner (lam (get w1 owner) + r)).
  assert (total_lamports w' = total_lamports w2) as ->.
  { apply total_same. intros k. rewrite L. unfold w2, w1. ws. destruct (N.eqb_spec owner k) as [<-|]; auto. }
  pose proof (total_setl w pool (lam (get w pool) - r)) as T1. fold w1 in T1.
  pose proof (total_setl w1 owner (lam (get w1 owner) + r)) as T2. fold w2 in T2. lia.
Qed.
(* A harvest creates the reward out of nothing exactly when it is paid to the config itself. *)
Lemma total_harvest e w ck vhr auth va sk keeper w' : harvested e w ck vhr auth va sk keeper w' ->
  keeper <> Some ck -> exists c d h rpt sr hr, reading e w ck va sk c d h rpt sr hr /\
    total_lamports w' = total_lamports w + (if auth =? ck then sr + hr else 0).
Proof.
  intros H NK. destruct (harvested_net _ _ _ _ _ _ _ _ _ H)
    as (c & d & h & rpt & sr & hr & RD & _ & _ & O1 & L1 & C1 & S1 & X1).
  exists c, d, h, rpt, sr, hr. split; [auto|]. pose proof (rd_lam _ _ _ _ _ _ _ _ _ _ _ RD) as RL.
  set (kr := keeper_part keeper (sr + hr) (cfg_sync c)) in *.
  assert (kr <= sr + hr) as KR by (unfold kr, keeper_part; destruct keeper; lia).
  set (w1 := match keeper with Some x => setl w x (lam (get w x) + kr) | None => w end).
  assert (forall k, lam (get w1 k) = keeper_lam w keeper kr k) as K1.
  { intros k. unfold w1, keeper_lam. destruct keeper as [x|]; ws; auto. destruct (N.eqb_spec x k); subst; auto. }
  assert (total_lamports w1 = total_lamports w + kr) as T1.
  { unfold w1. destruct keeper as [x|]; [pose proof (total_setl w x (lam (get w x) + kr)); lia|unfold kr; simpl; lia]. }
  set (w2 := setl w1 ck (lam (get w ck) - (sr + hr))).
  assert (lam (get w1 ck) = lam (get w ck)) as KC.
  { rewrite K1. unfold keeper_lam. destruct keeper as [x|]; auto. destruct (N.eqb_spec x ck); congruence. }
  pose proof (total_setl w1 ck (lam (get w ck) - (sr + hr))) as T2. fold w2 in T2.
  set (w3 := setl w2 auth (lam (get w1 auth) + (sr + hr - kr))).
  pose proof (total_setl w2 auth (lam (get w1 auth) + (sr + hr - kr))) as T3. fold w3 in T3.
  assert (total_lamports w' = total_lamports w3) as ->.
  { apply total_same. intros k. rewrite L1. unfold paid_lam. fold kr. unfold w3, w2. ws. rewrite !K1.
    destruct (N.eqb_spec auth k); auto. }
  assert (lam (get w2 auth) = if auth =? ck then lam (get w ck) - (sr + hr) else lam (get w1 auth)) as L2.
  { unfold w2. ws. rewrite (N.eqb_sym ck auth). auto. }
  destruct (N.eqb_spec auth ck) as [->|]; lia.
Qed.

(** ** The config's reward bookkeeping *)
(* The runtime refuses an instruction that changes the total of lamports; until
   then a step may have paid a reward to the config itself. *)
Definition settles (ck : pubkey) (w w' : world) : Prop := total_lamports w <= total_lamports w' /\ exists c c',
  dat (get w ck) = DConfig c /\ dat (get w' ck) = DConfig c' /\ cfg_last c <= lam (get w ck) /\
  (cfg_acc c < U128 -> cfg_acc c' < U128) /\
  (total_lamports w' = total_lamports w -> cfg_acc c < U128 ->
   cfg_acc c' = acc_now (lam (get w ck)) c /\ cfg_last c' = lam (get w' ck)).
Definition frozen (ck : pubkey) (w w' : world) : Prop := total_lamports w' = total_lamports w /\ exists c c',
  dat (get w ck) = DConfig c /\ dat (get w' ck) = DConfig c' /\
  cfg_acc c' = cfg_acc c /\ cfg_last c' = cfg_last c /\ lam (get w' ck) = lam (get w ck).
Definition acc_ok (ck : pubkey) (w : world) : Prop := forall c, dat (get w ck) = DConfig c -> cfg_acc c < U128.
Lemma acc_wf ck w : wf_world w -> acc_ok ck w.
Proof. intros W c D. pose proof (wf_dat w ck W) as X. rewrite D in X. apply X. Qed.
Lemma settles_frozen ck w1 w2 w3 : settles ck w1 w2 -> frozen ck w2 w3 -> settles ck w1 w3.
Proof.
  intros (T & c & c' & D & D' & LE & AB & E) (T2 & c1 & c2 & D1 & D2 & E2 & L2 & LL).
  rewrite D' in D1. injection D1 as <-. split; [lia|]. exists c, c2. split; [auto|]. split; [auto|]. split; [auto|].
  split; [rewrite E2; auto|]. intros TT A. destruct E as [E EL]; [lia|auto|]. split; congruence.
Qed.
Lemma settles_trans ck w1 w2 w3 : settles ck w1 w2 -> settles ck w2 w3 -> settles ck w1 w3.
Proof.
  intros (T & c & c' & D & D' & LE & AB & E) (T2 & c1 & c2 & D1 & D2 & LE2 & AB2 & E2).
  rewrite D' in D1. injection D1 as <-. split; [lia|]. exists c, c2. split; [auto|]. split; [auto|]. split; [auto|].
  split; [auto|]. intros TT A. destruct E as [E EL]; [lia|auto|]. destruct E2 as [E2 EL2]; [lia|auto|].
  split; [|auto]. rewrite E2, acc_now_seen; auto. lia.
Qed.
Lemma frozen_trans ck w1 w2 w3 : frozen ck w1 w2 -> frozen ck w2 w3 -> frozen ck w1 w3.
Proof.
  intros (T & c & c' & D & D' & E & L & LE) (T2 & c1 & c2 & D1 & D2 & E2 & L2 & LL).
  rewrite D' in D1. injection D1 as <-. split; [lia|]. exists c, c2. repeat split; congruence.
Qed.
Lemma frozen_refl ck w c : dat (get w ck) = DConfig c -> frozen ck w w.
Proof. intros D. split; [auto|]. exists c, c. auto. Qed.
Lemma frozen_same ck w w' c : dat (get w ck) = DConfig c -> dat (get w' ck) = dat (get w ck) ->
  total_lamports w' = total_lamports w -> lam (get w' ck) = lam (get w ck) -> frozen ck w w'.
Proof. intros D E T L. split; [auto|]. exists c, c. rewrite E. auto. Qed.

Lemma keeper_lam_other w keeper kr k : keeper <> Some k -> keeper_lam w keeper kr k = lam (get w k).
Proof. intros N. destruct keeper as [x|]; simpl; auto. destruct (N.eqb_spec x k); congruence. Qed.
Lemma settles_harvest e w ck vhr auth va sk keeper w' : harvested e w ck vhr auth va sk keeper w' ->
  keeper <> Some ck -> settles ck w w'.
Proof.
  intros H NK. destruct (total_harvest _ _ _ _ _ _ _ _ _ H NK) as (c2 & d2 & h2 & rpt2 & sr2 & hr2 & RD2 & T).
  destruct (harvested_net _ _ _ _ _ _ _ _ _ H)
    as (c & d & h & rpt & sr & hr & RD & _ & _ & O1 & L1 & C1 & S1 & X1).
  assert (c2 = c) as -> by (pose proof (rd_c _ _ _ _ _ _ _ _ _ _ _ RD); pose proof (rd_c _ _ _ _ _ _ _ _ _ _ _ RD2); congruence).
  assert (d2 = d) as -> by (pose proof (rd_d _ _ _ _ _ _ _ _ _ _ _ RD); pose proof (rd_d _ _ _ _ _ _ _ _ _ _ _ RD2); congruence).
  assert (h2 = h) as -> by (pose proof (rd_h _ _ _ _ _ _ _ _ _ _ _ RD); pose proof (rd_h _ _ _ _ _ _ _ _ _ _ _ RD2); congruence).
  assert (rpt2 = rpt) as -> by (pose proof (rd_r _ _ _ _ _ _ _ _ _ _ _ RD); pose proof (rd_r _ _ _ _ _ _ _ _ _ _ _ RD2); congruence).
  assert (sr2 = sr) as -> by (pose proof (rd_sr _ _ _ _ _ _ _ _ _ _ _ RD); pose proof (rd_sr _ _ _ _ _ _ _ _ _ _ _ RD2); congruence).
  assert (hr2 = hr) as -> by (pose proof (rd_hr _ _ _ _ _ _ _ _ _ _ _ RD); pose proof (rd_hr _ _ _ _ _ _ _ _ _ _ _ RD2); congruence).
  clear RD2. pose proof (rd_c _ _ _ _ _ _ _ _ _ _ _ RD) as D. split; [lia|].
  exists c, (settle_cfg c rpt (lam (get w ck) - (sr + hr))). split; [auto|]. split; [auto|].
  cbn [settle_cfg set_cfg_last set_cfg_acc cfg_acc cfg_last]. split; [exact (rd_l _ _ _ _ _ _ _ _ _ _ _ RD)|].
  split; [intros; apply wadd128_lt|]. intros TT A. split.
  - apply acc_now_rpt; [auto|]. exact (rd_r _ _ _ _ _ _ _ _ _ _ _ RD).
  - rewrite L1. unfold paid_lam. destruct (N.eqb_spec auth ck) as [->|].
    + rewrite keeper_lam_other by auto. assert (sr + hr = 0) as Z by lia. rewrite Z. unfold keeper_part.
      destruct keeper; simpl; lia.
    + now rewrite N.eqb_refl.
Qed.
Lemma frozen_resync w ck sk lim w' : resynced w ck sk lim w' -> frozen ck w w'.
Proof.
  intros []. split; [now apply total_same|]. exists c. eexists. split; [auto|]. split; [rewrite Hdat, N.eqb_refl; reflexivity|]. auto.
Qed.
Lemma frozen_setd w ck k D c : dat (get w ck) = DConfig c -> k <> ck -> frozen ck w (setd w k D).
Proof. intros C NE. eapply frozen_same; eauto using total_setd; ws; auto. destruct (N.eqb_spec k ck); congruence. Qed.
Lemma frozen_put_del w ck k D c : dat (get w ck) = DConfig c -> frozen ck w (put_del w k D).
Proof.
  intros C. eapply frozen_same; eauto using total_put_del; ws; auto. destruct (N.eqb_spec k ck) as [->|]; auto. now rewrite C.
Qed.
Lemma settles_revalidated e w ck vhr vs vk vauth f w' : revalidated e w ck vhr vs vk vauth f w' ->
  settles ck w w'.
Proof.
  intros []. pose proof (harvested_sk _ _ _ _ _ _ _ _ _ H1) as NS.
  pose proof (settles_harvest _ _ _ _ _ _ _ _ _ H1 ltac:(discriminate)) as S.
  apply settles_frozen with w2; [|eapply frozen_resync; eauto].
  apply settles_frozen with w1; [auto|]. destruct S as (_ & _ & c' & _ & D' & _). rewrite H2. eapply frozen_setd; eauto.
Qed.
Definition syncs (c : call) : bool :=
  match c with
  | CInitializeConfig _ _ _ _ _ _ _ | CInitializeValidatorStake _ | CInitializeSolStakerStake _
  | CSetAuthority _ _ | CUpdateConfig _ _ | CValidatorSyncAuthority _ => false
  | _ => true
  end.
Lemma config_not_pool e w ck c k : env_ok e -> config_at e w ck c -> own (get w k) = e_rewards e -> k <> ck.
Proof. intros OK [O _] P ->. destruct (prog_ids _ OK) as (_ & _ & P2 & _). congruence. Qed.
Lemma config_not_vault e w ck c ck' : sane e w -> config_at e w ck c -> e_vault e ck' <> ck.
Proof. intros S C <-. destruct (sane_cfg _ _ S _ _ C) as [N _]. apply N. unfold pda. eauto 8. Qed.
Lemma frozen_pframe e w w' ck c : pframe e w w' -> config_at e w ck c ->
  total_lamports w' = total_lamports w -> lam (get w' ck) = lam (get w ck) -> frozen ck w w'.
Proof. intros [_ F] [O D] T L. eapply frozen_same; eauto. Qed.
Lemma frozen_transferred e sig w src mnt dst auth amount w' ck c : env_ok e -> config_at e w ck c ->
  transferred e sig w src mnt dst auth amount w' -> frozen ck w w'.
Proof.
  intros OK C H. eapply frozen_pframe; eauto using pframe_transferred; destruct H; auto. now apply total_same.
Qed.
Lemma frozen_burned e sig w src mnt auth amount w' ck c : env_ok e -> config_at e w ck c ->
  burned e sig w src mnt auth amount w' -> frozen ck w w'.
Proof.
  intros OK C H. eapply frozen_pframe; eauto using pframe_burned; destruct H; auto. now apply total_same.
Qed.
Lemma frozen_deposited e sig w pool ptok vhr tacc mnt owner amount acc w' ck c : env_ok e -> config_at e w ck c ->
  owner <> ck -> deposited_ok e sig w pool ptok vhr tacc mnt owner amount acc w' -> frozen ck w w'.
Proof.
  intros OK C NO H. eapply frozen_pframe; eauto using pframe_deposited; destruct H; [eapply total_pay; eauto|].
  rewrite Hl. apply pay_lam_other; auto. intros E. symmetry in E. revert E. eapply config_not_pool; eauto.
Qed.
Lemma frozen_withdrawn e sig w pool ptok vhr tacc mnt owner amount acc w' ck c : env_ok e -> config_at e w ck c ->
  owner <> ck -> withdrawn_ok e sig w pool ptok vhr tacc mnt owner amount acc w' -> frozen ck w w'.
Proof.
  intros OK C NO H. eapply frozen_pframe; eauto using pframe_withdrawn; destruct H; [eapply total_pay; eauto|].
  rewrite Hl. apply pay_lam_other; auto. intros E. symmetry in E. revert E. eapply config_not_pool; eauto.
Qed.
(* harvest, change the delegation, re-cap *)
Lemma settles_chain e w ck vhr auth va sk keeper w1 w2 lim w3 :
  harvested e w ck vhr auth va sk keeper w1 -> frozen ck w1 w2 -> resynced w2 ck sk lim w3 ->
  keeper <> Some ck -> settles ck w w3.
Proof.
  intros H F R NK. eapply settles_frozen; [|eapply frozen_resync; eauto].
  eapply settles_frozen; [|eauto]. eapply settles_harvest; eauto.
Qed.
Lemma settles_staked e cx a n w w' : env_ok e -> sane e w -> staked_any e cx a n w w' ->
  settles (st_config a) w w'.
Proof.
  intros OK S []. pose proof H as [c d w1 w2 w3 w4].
  assert (evolves e w w3) as E3.
  { apply evolves_trans with w2; [rewrite H2; eapply del_of_harvest_put; try eassumption; reflexivity|].
    eapply evolves_resync; eauto. }
  destruct (evolves_config _ _ _ _ _ E3 (conj Hco Hc0)) as (c3 & C3 & _).
  assert (evolves e w3 w4) as E4 by (eapply evolves_transferred; eauto).
  destruct (evolves_config _ _ _ _ _ E4 C3) as (c4 & C4 & _).
  apply settles_frozen with w4; [apply settles_frozen with w3|].
  - eapply settles_chain; eauto; try discriminate. rewrite H2. eapply frozen_put_del; eauto.
  - eapply frozen_transferred; eauto.
  - refine (frozen_deposited _ _ _ _ _ _ _ _ _ _ _ _ _ _ OK C4 _ H5). rewrite Hvp. eapply config_not_vault; eauto. split; eauto.
Qed.
Lemma settles_unstaked e cx a n w w' : env_ok e -> sane e w -> unstaked_ok e cx a n w w' ->
  settles (un_config a) w w'.
Proof.
  intros OK S H. destruct H as [c0 d0 c d m w1 w2 w3 w4].
  assert (evolves e w w3) as E3.
  { apply evolves_trans with w2; [rewrite H2; eapply del_of_harvest_put; try eassumption; reflexivity|].
    eapply evolves_resync; eauto. }
  destruct (evolves_config _ _ _ _ _ E3 (conj Hco Hc0)) as (c3 & C3 & _).
  assert (evolves e w3 w4) as E4 by (eapply evolves_withdrawn; eauto).
  destruct (evolves_config _ _ _ _ _ E4 C3) as (c4 & C4 & _).
  apply settles_frozen with w4; [apply settles_frozen with w3|].
  - eapply settles_chain; eauto; try discriminate. rewrite H2. eapply frozen_put_del; eauto.
  - refine (frozen_withdrawn _ _ _ _ _ _ _ _ _ _ _ _ _ _ OK C3 _ H4). rewrite Hvp. eapply config_not_vault; eauto. split; eauto.
  - eapply frozen_transferred; eauto.
Qed.
Lemma settles_slashed e cx a n w w' : env_ok e -> sane e w -> slashed_any e cx a n w w' ->
  settles (sl_config a) w w'.
Proof.
  intros OK S []. destruct H as [c1 c d w1 w2 w3].
  assert (evolves e w w2) as E2 by (rewrite H2; eapply del_of_harvest_put; try eassumption; reflexivity).
  destruct (evolves_config _ _ _ _ _ E2 (conj Hco Hc0)) as (c2 & C2 & _).
  eapply settles_chain; eauto; try discriminate. apply frozen_trans with w2.
  - rewrite H2. eapply frozen_put_del; eauto.
  - destruct H3 as [[_ ->]|(_ & _ & H3)]; [destruct C2; eapply frozen_refl; eauto|eapply frozen_burned; eauto].
Qed.
Lemma settles_moved e cx a n w w' : moved_ok e cx a n w w' -> settles (mv_config a) w w'.
Proof.
  intros []. pose proof (settles_harvest _ _ _ _ _ _ _ _ _ H1 ltac:(discriminate)) as S1.
  pose proof (settles_harvest _ _ _ _ _ _ _ _ _ H2 ltac:(discriminate)) as S2.
  eapply settles_frozen; [|eapply frozen_resync; eauto]. eapply settles_frozen; [|eapply frozen_resync; eauto].
  apply settles_frozen with w2; [eapply settles_trans; eauto|]. destruct S2 as (_ & _ & c2 & _ & D2 & _).
  assert (frozen (mv_config a) w2 w3) as F3 by (rewrite H3; eapply frozen_put_del; eauto).
  apply frozen_trans with w3; [auto|]. destruct F3 as (_ & _ & c3 & _ & D3 & _). rewrite H4. eapply frozen_put_del; eauto.
Qed.
Lemma settles_left e w a s w' : left_ok e w a s w' -> settles (hs_config a) w w' \/ w' = w.
Proof. intros []; [|auto]. left. eapply settles_revalidated; eauto. Qed.
Lemma settles_joined e w a cv cs w' cv' cs' : joined_ok e w a cv cs w' cv' cs' ->
  settles (hs_config a) w w' \/ w' = w.
Proof. intros []; auto. left. eapply settles_revalidated; eauto. Qed.
Lemma settles_or ck w1 w2 w3 : settles ck w1 w2 -> settles ck w2 w3 \/ w3 = w2 -> settles ck w1 w3.
Proof. intros S [T | ->]; [eapply settles_trans; eauto|auto]. Qed.
Lemma settles_harvested_sol e cx a w w' : harvested_sol_ok e cx a w w' -> hs_keeper a <> Some (hs_config a) ->
  settles (hs_config a) w w'.
Proof.
  intros H CL. destruct H; [eapply settles_harvest; eauto; discriminate|].
  assert (settles (hs_config a) w w1) as S1 by (eapply settles_harvest; eauto; congruence).
  assert (settles (hs_config a) w w3) as S3.
  { eapply settles_or; [eapply settles_or; [exact S1|eapply settles_left; eauto]|eapply settles_joined; eauto]. }
  eapply settles_frozen; [|eapply frozen_resync; eauto]. apply settles_frozen with w3; [auto|].
  destruct S3 as (_ & _ & c3 & _ & D3 & _). rewrite H4. eapply frozen_setd; eauto. intros E. rewrite E, D3 in Hs3. discriminate.
Qed.
Lemma total_transfer w src dst r : r <= lam (get w src) ->
  total_lamports (setl (setl w src (lam (get w src) - r)) dst
    (lam (get (setl w src (lam (get w src) - r)) dst) + r)) = total_lamports w.
Proof.
  intros R. set (w1 := setl w src (lam (get w src) - r)).
  pose proof (total_setl w src (lam (get w src) - r)) as T1. fold w1 in T1.
  pose proof (total_setl w1 dst (lam (get w1 dst) + r)) as T2. lia.
Qed.
Lemma settles_held e cx a w w' : env_ok e -> sane e w -> held_ok e cx a w w' -> settles (hh_config a) w w'.
Proof.
  intros OK S []. destruct H1 as [c1 rpt Hc1 Hl1 Hr1 Hw1]. rewrite Hc0 in Hc1. injection Hc1 as <-.
  pose proof (vault_auth_eq _ _ _ _ _ OK S (conj Hco Hc0) Hva) as VA.
  assert (config_at e w1 (hh_config a) (set_cfg_last (set_cfg_acc c0 (wadd128 (cfg_acc c0) rpt)) (lam (get w (hh_config a))))) as C1.
  { rewrite Hw1. split; ws; [auto|]. now rewrite N.eqb_refl. }
  destruct (pframe_rharvested _ _ _ _ _ _ _ _ _ _ OK H2) as [_ PF]. destruct C1 as [C1o C1d].
  rewrite PF in Hc by auto. rewrite C1d in Hc. injection Hc as <-.
  assert (total_lamports w' = total_lamports w) as T.
  { rewrite H4, total_setd, H3. clear H3 H4 Hov. set (v := hh_vault_pda a) in *. set (m := e_rent e _) in *.
    replace m with (lam (get w2 v) - (lam (get w2 v) - m)) at 1 by lia.
    replace m with (lam (get w2 v) - (lam (get w2 v) - m)) at 2 by lia.
    rewrite total_transfer by lia. destruct H2. rewrite (total_pay _ _ _ _ _ Hlp Hl), Hw1. apply total_setd. }
  split; [lia|]. exists c0. eexists. split; [auto|]. split; [rewrite H4; ws; rewrite N.eqb_refl; reflexivity|].
  cbn [set_cfg_last set_cfg_acc cfg_acc cfg_last]. split; [auto|]. split; [intros; apply wadd128_lt|].
  intros _ A. split; [apply acc_now_rpt; auto|]. rewrite H4. now ws.
Qed.
Lemma did_settles e cx w w' c : env_ok e -> sane e w -> did e cx w w' c -> syncs c = true ->
  keeper_in c <> Some (call_config c) -> settles (call_config c) w w'.
Proof.
  intros OK S D SY CL. revert SY CL.
  destruct D; intros SY CL; try discriminate SY; cbn [call_config].
  - eapply settles_staked; eauto.
  - eapply settles_held; eauto.
  - destruct H. eapply settles_harvest; eauto; discriminate.
  - eapply settles_slashed; eauto.
  - eapply settles_staked; eauto.
  - eapply settles_harvested_sol; eauto.
  - eapply settles_unstaked; eauto.
  - eapply settles_slashed; eauto.
  - eapply settles_moved; eauto.
  - destruct H. eapply settles_chain; eauto; try discriminate. rewrite H2.
    pose proof (harvested_sk _ _ _ _ _ _ _ _ _ H1) as NS.
    destruct (harvested_net _ _ _ _ _ _ _ _ _ H1) as (cq & dq & hq & rpt & sr & hr & RD & _ & _ & O1 & L1 & C1 & S1 & X1).
    eapply frozen_setd; eauto.
Qed.
(** A successful instruction on a config settles it: the accumulator takes in all
    lamports that had arrived and the balance is recorded as seen. *)
Lemma run_settles e cx c w w' : env_ok e -> sane e w -> wf_world w -> run e cx c w = Ok w' -> syncs c = true ->
  keeper_in c <> Some (call_config c) -> exists cf cf',
    config_at e w (call_config c) cf /\ config_at e w' (call_config c) cf' /\
    cfg_acc cf' = acc_now (lam (get w (call_config c))) cf /\ cfg_last cf' = lam (get w' (call_config c)).
Proof.
  intros OK S W R SY K. apply run_ok in R as (_ & D & T & _).
  pose proof (did_settles _ _ _ _ _ OK S D SY K) as (_ & cf & cf' & D1 & D2 & _ & _ & E).
  destruct E as [E1 E2]; [auto|eapply acc_wf; eauto|].
  assert (own (get w (call_config c)) = e_prog e) as O by (destruct D; try discriminate SY; destruct H; auto).
  exists cf, cf'. repeat split; auto.
  assert (creates c = false) as CR by (destruct c; try reflexivity; discriminate SY).
  rewrite (ev_own _ _ _ (did_evolves _ _ _ _ _ OK D CR)). auto.
Qed.
