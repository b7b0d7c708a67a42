(** When a handler panics. *)
From Verif Require Import Base Types Layout Instr Math External Processor Runtime History Spec SpecReward SpecLive SpecPanic
  WorldLemmas Effects Handlers Evolve Sane Wf Totals Arith Nets Caps Stakers Deposits Inv Life Rewards Collect Progress Solvency Live.

Lemma np_bind {A B} (r : result A) (f : A -> result B) : r <> Panic -> (forall x, r = Ok x -> f x <> Panic) -> bind r f <> Panic.
Proof. destruct r; cbn; auto; congruence. Qed.
Lemma bind_panic {A B} (r : result A) (f : A -> result B) : bind r f = Panic ->
  r = Panic \/ exists x, r = Ok x /\ f x = Panic.
Proof. destruct r; cbn; eauto; discriminate. Qed.

Create HintDb np.
Ltac np := repeat first
  [ discriminate | assumption | solve [auto with np nocore]
  | match goal with
    | |- bind _ _ <> Panic => apply np_bind; [|intros ? ?]
    | |- (match ?x with _ => _ end) <> Panic => destruct x eqn:?
    end
  | progress cbv zeta ].
Lemma np_require b x : require b x <> Panic. Proof. unfold require. np. Qed.
Lemma np_add64 a b : add64 a b <> Panic. Proof. unfold add64. np. Qed.
Lemma np_csub a b : csub a b <> Panic. Proof. unfold csub. np. Qed.
Lemma np_mul128 a b : mul128 a b <> Panic. Proof. unfold mul128. np. Qed.
Lemma np_to64 a : to64 a <> Panic. Proof. unfold to64. np. Qed.
Global Hint Resolve np_require np_add64 np_csub np_mul128 np_to64 : np.
Lemma np_eligible a b c : calculate_eligible_rewards a b c <> Panic. Proof. unfold calculate_eligible_rewards. np. Qed.
Lemma np_rpt a b : calculate_stake_rewards_per_token a b <> Panic. Proof. unfold calculate_stake_rewards_per_token. np. Qed.
Lemma np_max a : calculate_maximum_stake a <> Panic. Proof. unfold calculate_maximum_stake. np. Qed.
Lemma np_deact a b : max_deactivation_amount a b <> Panic. Proof. unfold max_deactivation_amount. np. Qed.
Lemma np_config d : unpack_config d <> Panic. Proof. unfold unpack_config. np. Qed.
Lemma np_val d : unpack_val d <> Panic. Proof. unfold unpack_val. np. Qed.
Lemma np_sol d : unpack_sol d <> Panic. Proof. unfold unpack_sol. np. Qed.
Lemma np_token d : unpack_token d <> Panic. Proof. unfold unpack_token. np. Qed.
Lemma np_mint d : unpack_mint d <> Panic. Proof. unfold unpack_mint. np. Qed.
Lemma np_holder d : unpack_holder d <> Panic. Proof. unfold unpack_holder. np. Qed.
Lemma np_vote d : vote_withdrawer d <> Panic. Proof. unfold vote_withdrawer. np. Qed.
Lemma np_del d : del_of d <> Panic. Proof. unfold del_of. np. Qed.
Global Hint Resolve np_eligible np_rpt np_max np_deact np_config np_val np_sol np_token np_mint np_holder np_vote np_del : np.
Lemma np_load_config e w k : load_config e w k <> Panic. Proof. unfold load_config. np. Qed.
Lemma np_load_val e w k ck : load_val e w k ck <> Panic. Proof. unfold load_val. np. Qed.
Lemma np_load_sol e w k ck : load_sol e w k ck <> Panic. Proof. unfold load_sol. np. Qed.
Lemma np_load_any e w k ck : load_any e w k ck <> Panic. Proof. unfold load_any. np. Qed.
Lemma np_sync_config w k : sync_config_lamports w k <> Panic. Proof. unfold sync_config_lamports. np. Qed.
Lemma np_sync w ck sk l m : sync_effective w ck sk l m <> Panic. Proof. unfold sync_effective. np. Qed.
Lemma np_duna e w a b c : check_duna e w a b c <> Panic. Proof. unfold check_duna. np. Qed.
Lemma np_cpi w w' a b : cpi_check w w' a b <> Panic. Proof. unfold cpi_check. np. Qed.
Global Hint Resolve np_load_config np_load_val np_load_sol np_load_any np_sync_config np_sync np_duna np_cpi : np.
Lemma np_token_at e w k : token_at e w k <> Panic. Proof. unfold token_at. np. Qed.
Lemma np_mint_at e w k : mint_at e w k <> Panic. Proof. unfold mint_at. np. Qed.
Lemma np_authorise s t a n : token_authorise s t a n <> Panic. Proof. unfold token_authorise. np. Qed.
Global Hint Resolve np_token_at np_mint_at np_authorise : np.
Lemma np_transfer e s w a b c d n : token_transfer e s w a b c d n <> Panic. Proof. unfold token_transfer. np. Qed.
Lemma np_burn e s w a b c n : token_burn e s w a b c n <> Panic. Proof. unfold token_burn. np. Qed.
Lemma np_assign s w a b : system_assign s w a b <> Panic. Proof. unfold system_assign. np. Qed.
Lemma np_allocate s w a b : system_allocate s w a b <> Panic. Proof. unfold system_allocate. np. Qed.
Lemma np_pool_reward a b c : pool_reward a b c <> Panic. Proof. unfold pool_reward. np. Qed.
Lemma np_checked e s w a b c d o : rewards_checked e s w a b c d o <> Panic. Proof. unfold rewards_checked. np. Qed.
Lemma np_pay w a b c : pool_pay w a b c <> Panic. Proof. unfold pool_pay. np. Qed.
Global Hint Resolve np_transfer np_burn np_assign np_allocate np_pool_reward np_checked np_pay : np.
Lemma np_rharvest e s w a b c d o n : rewards_harvest e s w a b c d o n <> Panic. Proof. unfold rewards_harvest. np. Qed.
Lemma np_deposit e s w a b c d f g h o n : rewards_deposit e s w a b c d f g h o n <> Panic. Proof. unfold rewards_deposit. np. Qed.
Lemma np_withdraw e s w a b c d f g h o n : rewards_withdraw e s w a b c d f g h o n <> Panic. Proof. unfold rewards_withdraw. np. Qed.
Global Hint Resolve np_rharvest np_deposit np_withdraw : np.
Lemma np_slash e cx a n w0 w : process_slash_for_delegation e cx a n w0 w <> Panic. Proof. unfold process_slash_for_delegation. np. Qed.
Global Hint Resolve np_slash : np.

(** Peel the first operation off a panicking computation; it was not the culprit. *)
Ltac nope H := match type of H with ?r = Panic => let N := fresh in assert (r <> Panic) as N by (clear H; np); exact (N H) end.
Ltac pstep H x E := apply bind_panic in H as [H|(x & E & H)]; [exfalso; nope H|].

(** ** A harvest panics only when the config cannot pay *)
Lemma harvest_panics e ck w c sk d auth vhr keeper : wf_world w -> config_at e w ck c -> stake_of e w ck sk = Some d ->
  harvest e w ck vhr auth (e_vault e ck) sk keeper = Panic ->
  lam (get w ck) < pending e w ck sk + e_rent e CONFIG_LEN /\ auth = authority d /\ vhr = e_holder e (e_vault e ck) /\
  exists h, dat (get w (e_holder e (e_vault e ck))) = DHolder h.
Proof.
  intros WF [CO CD] S H. apply stake_of_some in S as SS. destruct SS as (SO & D & B). unfold harvest in H. rewrite D in H.
  cbn [bind] in H. pstep H u1 G1. pstep H w1 E1. pose proof E1 as E1'.
  apply sync_config_lamports_ok in E1' as [c' rpt Hc Hl Hr ->]. rewrite CD in Hc. injection Hc as <-.
  assert (sk <> ck) as NS by (intros ->; rewrite CD in D; discriminate).
  wsi H. rewrite N.eqb_refl in H. cbn [unpack_config bind] in H. cbn [cfg_acc set_cfg_last set_cfg_acc cfg_sync] in H.
  pstep H sr ESR. pstep H u2 G2. pstep H h EH. pstep H hr EHR. pstep H t ET. cbv zeta in H. pstep H l EL. wsi EL.
  apply require_ok in G1. b2p G1. apply require_ok in G2. b2p G2.
  apply unpack_holder_ok in EH. wsi EH. destruct (N.eqb_spec ck vhr) as [E|NH]; [discriminate|].
  assert (cfg_acc c < U128) as AB by (pose proof (wf_dat _ ck WF) as W; rewrite CD in W; simpl in W; tauto).
  apply eligible_ok in ESR as [ESR _]. apply eligible_ok in EHR as [EHR _].
  rewrite (acc_now_rpt _ _ _ AB Hr), since_wsub in ESR. rewrite since_wsub in EHR.
  apply add64_ok in ET as [ET _]. apply csub_ok in EL as [EL1 EL2].
  apply bind_panic in H as [H|(u & _ & H)].
  - unfold assert in H. destruct (N.leb_spec (e_rent e CONFIG_LEN) l) as [|L]; [discriminate|].
    split; [|split; [auto|split; [auto|subst vhr; eauto]]].
    unfold pending. rewrite S, CD. unfold stake_claim, holder_claim, holder_acc. rewrite <- G2, EH.
    change SCALE with (10 ^ 18) in *. rewrite <- ESR, <- EHR. lia.
  - exfalso. nope H.
Qed.

(** Claims the config can pay all at once. *)
Definition afford (e : env) (ck : pubkey) (ks : list pubkey) (w : world) : Prop :=
  sum_over (pending e w ck) ks + e_rent e CONFIG_LEN <= lam (get w ck).
Lemma afford_one e ck ks w k : afford e ck ks w -> In k ks -> pending e w ck k + e_rent e CONFIG_LEN <= lam (get w ck).
Proof. intros A I. unfold afford in A. pose proof (sum_over_in (pending e w ck) _ _ I). lia. Qed.
Lemma sum_over_drop f g ks k : NoDup ks -> In k ks -> g k = 0 -> (forall j, j <> k -> g j = f j) ->
  sum_over g ks + f k = sum_over f ks.
Proof.
  intros ND I Z E. induction ND as [|x ks NI ND IH]; [destruct I|]. rewrite elem_of_list_In in NI. cbn [sum_over].
  destruct (N.eq_dec x k) as [->|NE].
  - rewrite Z. assert (forall l, ~ In k l -> sum_over g l = sum_over f l) as SM.
    { clear - E. intros l. induction l as [|y l IH]; cbn [sum_over]; auto. intros NI. simpl in NI.
      rewrite IH, E; intuition congruence. }
    rewrite (SM _ NI). lia.
  - destruct I as [|I]; [congruence|]. rewrite (E x NE). specialize (IH I). lia.
Qed.
Lemma afford_gone e ck sk auth keeper l w w' ks : NoDup ks -> In sk ks -> gone e ck sk auth keeper l w w' ->
  afford e ck ks w -> afford e ck ks w'.
Proof.
  intros ND I G A. unfold afford in *. pose proof (go_paid _ _ _ _ _ _ _ _ G) as P. pose proof (go_coll _ _ _ _ _ _ _ _ G) as CL.
  pose proof (sum_over_drop (pending e w ck) (pending e w' ck) ks sk ND I (collected_zero _ _ _ _ _ CL)) as S.
  rewrite <- S in A; [lia|]. intros j NE. now apply (collected_pending _ _ _ _ _ _ CL).
Qed.

Lemma harvest_settles e ck w c sk d auth vhr keeper ks w' : env_ok e -> ready e ck w -> config_at e w ck c ->
  stake_of e w ck sk = Some d -> NoDup ks -> In sk ks -> afford e ck ks w -> auth <> ck -> keeper <> Some ck ->
  harvest e w ck vhr auth (e_vault e ck) sk keeper = Ok w' ->
  afford e ck ks w' /\ (exists l, gone e ck sk auth keeper l w w') /\ auth = authority d /\
  (exists a h, dat (get w' sk) = upd_del (dat (get w sk)) (set_lasts d h a)) /\ exists c', config_at e w' ck c'.
Proof.
  intros OK RY C S ND IK A NA NK H. pose proof (harvest_ok _ _ _ _ _ _ _ _ _ H) as HH.
  destruct (harvested_net _ _ _ _ _ _ _ _ _ HH) as (cc & d1 & h & rpt & sr & hr & RD & AU & VH & _).
  assert (d1 = d) as -> by (pose proof (rd_d _ _ _ _ _ _ _ _ _ _ _ RD); apply stake_of_some in S as (_ & D & _); congruence).
  destruct (harvest_goes e ck w c sk d auth vhr keeper OK RY C S AU NA NK VH (afford_one _ _ _ _ _ A IK))
    as (w1 & R1 & _ & G & x & y & D1 & z & t & C1).
  rewrite H in R1. injection R1 as <-. split; [eapply afford_gone; eauto|]. split; [eauto|]. split; [auto|]. split; [eauto|].
  eexists. split; [rewrite (go_own _ _ _ _ _ _ _ _ G); apply C|exact C1].
Qed.
Lemma harvest_never e ck w c sk d auth vhr keeper ks : wf_world w -> config_at e w ck c -> stake_of e w ck sk = Some d ->
  In sk ks -> afford e ck ks w -> harvest e w ck vhr auth (e_vault e ck) sk keeper <> Panic.
Proof.
  intros WF C S IK A H. destruct (harvest_panics _ _ _ _ _ _ _ _ _ WF C S H) as [L _].
  pose proof (afford_one _ _ _ _ _ A IK). lia.
Qed.
Lemma resync_never e ck w c vk v vauth vhr f ks : wf_world w -> config_at e w ck c -> stake_of e w ck vk = Some (v_del v) ->
  In vk ks -> afford e ck ks w -> (forall t, f t <> Panic) ->
  resync_validator e w ck vhr (e_vault e ck) vk vauth f <> Panic.
Proof.
  intros WF C S IK A F. unfold resync_validator. apply np_bind; [eapply harvest_never; eauto|]. intros w1 E. np.
Qed.
Lemma resync_settles e ck w c vk v vauth vhr f ks w' : env_ok e -> ready e ck w -> config_at e w ck c ->
  stake_of e w ck vk = Some (v_del v) -> dat (get w vk) = DVal v -> NoDup ks -> In vk ks -> afford e ck ks w -> vauth <> ck ->
  (forall x t, x < U64 -> f x = Ok t -> t < U64) ->
  resync_validator e w ck vhr (e_vault e ck) vk vauth f = Ok w' ->
  afford e ck ks w' /\ (exists l, gone e ck vk vauth None l w w') /\ (exists c', config_at e w' ck c') /\
  exists v', dat (get w' vk) = DVal v' /\ vote (v_del v') = vote (v_del v).
Proof.
  intros OK RY C S D ND IK A NA F H. pose proof H as H0. unfold resync_validator in H. stepn H w1 E1.
  destruct (harvest_settles e ck w c vk _ vauth vhr None ks w1 OK RY C S ND IK A NA ltac:(discriminate) E1)
    as (_ & _ & AU & (a & h & D1) & _).
  destruct (harvested_net _ _ _ _ _ _ _ _ _ (harvest_ok _ _ _ _ _ _ _ _ _ E1)) as (? & ? & ? & ? & ? & ? & _ & _ & VH & _).
  rewrite D in D1. cbn [upd_del] in D1. rewrite D1 in H. cbn [unpack_val bind] in H. cbn [v_total set_v_del v_min] in H.
  stepn H t Et. cbv zeta in H. pose proof (wf_dat _ vk (re_wf _ _ _ RY)) as WV. rewrite D in WV. destruct WV as (_ & VB & MB).
  pose proof (F _ _ VB Et) as TB. unfold sync_effective in H. stepn H c1 Ec1. stepn H d1 Ed1. stepn H lim El. clear H.
  rewrite maxstake_eq in El by lia. destruct (N.ltb_spec (13 * N.max t (v_min v) / 10) U64) as [CB|]; [|discriminate].
  destruct (resync_goes e ck w c vk v vauth vhr f t OK RY C S D AU NA VH Et TB CB (afford_one _ _ _ _ _ A IK))
    as (w2 & R2 & _ & G & d' & D2 & _ & V2).
  rewrite H0 in R2. injection R2 as <-. split; [eapply afford_gone; eauto|]. split; [eauto|]. split.
  - apply (ready_config _ _ _ (go_ready _ _ _ _ _ _ _ _ G)).
  - eexists. split; [exact D2|]. exact V2.
Qed.

(** ** The handlers *)
Lemma sol_stake_of e w k ck s : own (get w k) = e_prog e -> dat (get w k) = DSol s -> k = e_sol e (s_native s) ck ->
  stake_of e w ck k = Some (s_del s).
Proof. intros O D K. apply stake_of_intro; auto; rewrite D; [reflexivity|]. simpl. now rewrite <- K. Qed.
Lemma val_stake_of e w k ck v : own (get w k) = e_prog e -> dat (get w k) = DVal v -> k = e_val e (vote (v_del v)) ck ->
  stake_of e w ck k = Some (v_del v).
Proof. intros O D K. apply stake_of_intro; auto; rewrite D; [reflexivity|]. simpl. now rewrite <- K. Qed.

Lemma stake_never e cx a b n w c d ks : wf_world w -> config_at e w (st_config a) c ->
  stake_of e w (st_config a) (st_stake a) = Some d -> In (st_stake a) ks -> afford e (st_config a) ks w ->
  stake_tokens e cx a b n w <> Panic.
Proof.
  intros WF C S I A. unfold stake_tokens. cbv zeta. apply np_bind; [eapply harvest_never; eauto|]. intros. np.
Qed.
Lemma slash_never e cx a c l m n w d ks : env_ok e -> inv e w -> config_at e w (sl_config a) c ->
  stake_of e w (sl_config a) (sl_stake a) = Some d -> In (sl_stake a) ks -> afford e (sl_config a) ks w ->
  slash_stake e cx a c l m n w <> Panic.
Proof.
  intros OK I C S IK A. unfold slash_stake. destruct (sane_cfg _ _ (i_sane _ _ I) _ _ C) as (_ & _ & BU & _).
  rewrite BU, (ok_bump e OK). rewrite bind_Ok. apply np_bind; [np|]. intros u G. apply require_ok in G. b2p G. rewrite G.
  apply np_bind; [eapply harvest_never; eauto; apply I|]. intros. np.
Qed.
Lemma unstake_never e cx a n w ks : inv e w -> In (un_stake a) ks -> afford e (un_config a) ks w ->
  unstake_tokens e cx a n w <> Panic.
Proof.
  intros I IK A H. unfold unstake_tokens in H. pstep H c E. apply load_config_ok in E as [CO CD].
  pstep H u1 G1. pstep H u2 G2. pstep H t E2. cbv zeta in H. pstep H u3 G3. pstep H u4 G4. pstep H x E5.
  destruct x as [[p l] m]. pstep H u6 G6. pstep H u7 G7. pstep H d ED. pstep H u8 G8. pstep H u9 G9. pstep H u10 G10.
  apply require_ok in G4. b2p G4. apply require_ok in G6. b2p G6.
  assert (stake_of e w (un_config a) (un_stake a) = Some d) as S.
  { apply stake_of_intro; auto. unfold load_any in E5. apply del_of_ok in ED as [(v & D & _)|(s & D & _)]; rewrite D in *.
    - cbn in E5. injection E5 as <- _ _. simpl. exact G6.
    - cbn in E5. injection E5 as <- _ _. simpl. exact G6. }
  apply bind_panic in H as [H|(w1 & _ & H)]; [|nope H]. revert H.
  exact (harvest_never e _ w c _ d _ _ _ ks (i_wf _ _ I) (conj CO CD) S IK A).
Qed.
Lemma move_never e cx a n w ks : env_ok e -> inv e w -> total_lamports w < U64 -> NoDup ks -> In (mv_source a) ks -> In (mv_dest a) ks ->
  mv_authority a <> mv_config a -> afford e (mv_config a) ks w -> sol_staker_move_tokens e cx a n w <> Panic.
Proof.
  intros OK I TT ND IS ID NA A H. unfold sol_staker_move_tokens in H. pstep H c E. apply load_config_ok in E as C.
  pstep H u1 G1. pstep H s ES. apply load_sol_ok in ES as (SO & SD & SK). pstep H u2 G2. cbv zeta in H.
  pose proof (sol_stake_of _ _ _ _ _ SO SD SK) as S.
  apply bind_panic in H as [H|(w1 & E1 & H)]; [revert H; eapply harvest_never; eauto; apply I|].
  pose proof (harvested_net _ _ _ _ _ _ _ _ _ (harvest_ok _ _ _ _ _ _ _ _ _ E1)) as (? & ? & h & ? & ? & ? & RD & AU1 & _).
  pose proof (ready_inv _ _ _ _ _ I C (rd_h _ _ _ _ _ _ _ _ _ _ _ RD) TT) as RY.
  destruct (harvest_settles _ _ _ _ _ _ _ _ None _ _ OK RY C S ND IS A NA ltac:(discriminate) E1)
    as (A1 & (l & G) & AU & (xa & ya & D1) & (c1 & C1)). clear RD.
  pstep H u3 G3. pstep H u4 G4. pstep H t ET. apply load_sol_ok in ET as (TO & TD & TK).
  pose proof (sol_stake_of _ _ _ _ _ TO TD TK) as S2. pose proof (go_ready _ _ _ _ _ _ _ _ G) as RY1.
  apply bind_panic in H as [H|(w2 & E2 & H)]; [revert H; eapply harvest_never; eauto; apply (re_wf _ _ _ RY1)|].
  destruct (harvest_settles _ _ _ _ _ _ _ _ None _ _ OK RY1 C1 S2 ND ID A1 NA ltac:(discriminate) E2)
    as (_ & (l2 & G') & AU2 & (xb & yb & D2) & _).
  apply require_ok in G4. b2p G4. rewrite SD in D1. rewrite TD in D2. cbn [upd_del] in D1, D2.
  assert (mv_source a <> mv_config a) as NS by (intros E'; rewrite E' in SD; destruct C; congruence).
  rewrite (go_dat _ _ _ _ _ _ _ _ G') in H by auto. rewrite D1, D2 in H. cbn [unpack_sol bind] in H.
  rewrite assert_true in H by (cbn; rewrite <- AU, <- AU2; apply N.eqb_refl). nope H.
Qed.
Lemma holder_never e cx a w : total_lamports w < U64 -> harvest_holder_rewards e cx a w <> Panic.
Proof.
  intros TT H. unfold harvest_holder_rewards in H. pstep H c E. pstep H u1 G1. pstep H t E1. pstep H u2 G2. pstep H vs EV.
  pstep H u3 G3. pstep H u4 G4. pstep H u5 G5. pstep H w1 E2. pstep H w2 E3.
  apply sync_config_lamports_ok in E2 as [c' rpt Hc Hl Hr ->].
  assert (total_lamports w2 = total_lamports w) as T2.
  { apply rewards_harvest_ok in E3 as [h r]. rewrite (total_pay _ _ _ _ _ Hlp Hl0). apply total_setd. }
  apply bind_panic in H as [H|(w3 & _ & H)]; [|nope H]. unfold transfer_excess in H. pstep H u6 G6. cbv zeta in H. pstep H u7 G7.
  apply bind_panic in H as [H|(u & _ & H)]; [|nope H]. apply require_ok in G6. b2p G6.
  unfold assert in H. match type of H with (if ?b then _ else _) = _ => destruct b eqn:B; [discriminate|] end. apply N.ltb_ge in B. wsi B.
  revert B. destruct (N.eqb_spec (hh_vault_pda a) (hh_config a)) as [EQ|NE]; intros B.
  - pose proof (total_ge w2 (hh_vault_pda a)). lia.
  - pose proof (total_ge2 w2 _ _ NE). lia.
Qed.
Lemma init_sol_never e cx a w : env_ok e -> sane e w -> initialize_sol_staker_stake e cx a w <> Panic.
Proof.
  intros OK S H. unfold initialize_sol_staker_stake in H. pstep H c E. pstep H u1 G1. pstep H vw E1. pstep H u2 G2. pstep H u3 G3.
  pstep H u4 G4. pstep H u5 G5. pstep H u6 G6. pstep H v0 E2. cbv zeta in H. pstep H u7 G7. pstep H u8 G8. pstep H u9 G9.
  apply require_ok in G9. b2p G9.
  assert (pda e (is_override a)) as P by (right; right; right; eauto).
  assert (dat (get w (is_override a)) = DRaw []) as D.
  { destruct (N.eq_dec (own (get w (is_override a))) (e_prog e)) as [O|O]; [|apply (sane_pda _ _ S _ P O)].
    destruct (sane_kind _ _ S _ O) as [[b D]|[[x D]|[[v D]|[s D]]]].
    - destruct (sane_raw _ _ S _ _ O D) as [_ X]. destruct (X P) as [-> _]. auto.
    - destruct (sane_cfg _ _ S _ _ (conj O D)) as [N _]. contradiction.
    - destruct (sane_val _ _ S _ _ (conj O D)) as (ck & x & K & _). rewrite K in G9. now apply (ok_val_over e OK) in G9.
    - destruct (sane_sol _ _ S _ _ (conj O D)) as (ck & x & K & _). rewrite K in G9. now apply (ok_sol_over e OK) in G9. }
  rewrite D in H. cbn [data_empty bind] in H. nope H.
Qed.
Lemma harvest_sol_never e cx a w ks : env_ok e -> inv e w -> total_lamports w < U64 -> NoDup ks ->
  (forall k, settled_by e cx w (CHarvestSolStakerRewards a) k -> In k ks) ->
  (forall k, paid_by (CHarvestSolStakerRewards a) k -> k <> hs_config a) ->
  afford e (hs_config a) ks w -> harvest_sol_staker_rewards e cx a w <> Panic.
Proof.
  intros OK I TT ND KS PB A H. unfold harvest_sol_staker_rewards in H. pstep H c E. apply load_config_ok in E as C.
  pstep H s ES. apply load_sol_ok in ES as (SO & SD & SK). pstep H u1 G1. pstep H u2 G2. cbv zeta in H. pstep H u3 G3. pstep H u4 G4.
  pstep H vw EV. pstep H kp EK. set (ck := hs_config a) in *. set (sk := hs_stake a) in *.
  assert (c_view cx = Some vw) as CV by (destruct (c_view cx); congruence).
  set (rs := negb (vw_effective vw =? s_lamports s) || negb (vw_vote vw =? vote (s_del s))) in *.
  assert (kp <> Some ck) as NKP.
  { destruct rs; [|injection EK as <-; discriminate]. destruct (hs_keeper a) as [k|] eqn:HK; [|discriminate].
    injection EK as <-. intros [= ->]. apply (PB ck); [right; right; right; exact HK|reflexivity]. }
  assert (forall k, settles_with e w ck sk (vote (s_del s)) (vw_vote vw) k -> In k ks) as KS'.
  { intros k K. apply KS. exists s, vw. repeat split; auto. }
  assert (In sk ks) as ISK by (apply KS'; left; auto).
  assert (hs_authority a <> ck) as NA by (apply PB; left; auto).
  assert (hs_prev_auth a <> ck) as NPA by (apply PB; right; left; auto).
  pose proof (sol_stake_of _ _ _ _ _ SO SD SK) as S.
  apply bind_panic in H as [H|(w1 & E1 & H)].
  { exact (harvest_never e ck w c sk (s_del s) _ _ _ ks (i_wf _ _ I) C S ISK A H). }
  pose proof (harvested_net _ _ _ _ _ _ _ _ _ (harvest_ok _ _ _ _ _ _ _ _ _ E1)) as (? & ? & h & ? & ? & ? & RD & _).
  pose proof (ready_inv _ _ _ _ _ I C (rd_h _ _ _ _ _ _ _ _ _ _ _ RD) TT) as RY. clear RD.
  destruct (harvest_settles _ _ _ _ _ _ _ _ kp _ _ OK RY C S ND ISK A NA NKP E1)
    as (A1 & (l & G) & AU & (xa & ya & D1) & (c1 & C1)).
  destruct rs; [|discriminate H]. cbn [negb] in H. rewrite SD in D1. cbn [upd_del] in D1. rewrite D1 in H. cbn [unpack_sol bind] in H.
  pose proof (go_ready _ _ _ _ _ _ _ _ G) as RY1.
  assert (forall vt, own (get w1 (e_val e vt ck)) = e_prog e -> exists v, dat (get w1 (e_val e vt ck)) = DVal v /\
     stake_of e w1 ck (e_val e vt ck) = Some (v_del v)) as VAL1.
  { intros vt O. destruct (val_here _ _ _ _ OK (re_sane _ _ _ RY1) O) as (v & Dv & _ & Sv). eauto. }
  apply bind_panic in H as [H|(w2 & E2 & H)].
  - (* leaving *)
    unfold leave_previous in H. cbn [s_del set_s_del vote set_lasts s_lamports] in H.
    destruct (N.eqb_spec (vote (s_del s)) 0) as [V0|V0]; cbn [negb] in H.
    + destruct (i_totals _ _ I) as [_ SKs]. destruct (SKs _ _ _ (conj SO SD) SK) as [Z _]. rewrite (Z V0) in H. cbn in H. discriminate.
    + pstep H q1 Q1. pstep H q2 Q2. pstep H q3 Q3. apply require_ok in Q1. b2p Q1. apply require_ok in Q2. b2p Q2. rewrite Q2 in *.
      destruct (VAL1 _ Q1) as (v & Dv & Sv). revert H.
      refine (resync_never e ck w1 c1 _ v _ _ _ ks (re_wf _ _ _ RY1) C1 Sv _ A1 _); [|intros t; apply np_csub].
      apply KS'. right. left. auto.
  - assert (ready e ck w2 /\ afford e ck ks w2 /\ (exists c2, config_at e w2 ck c2) /\ (forall k, own (get w2 k) = own (get w k)))
      as (RY2 & A2 & (c2 & C2) & O2).
    { unfold leave_previous in E2. cbn [s_del set_s_del vote set_lasts s_lamports] in E2.
      destruct (N.eqb_spec (vote (s_del s)) 0) as [V0|V0]; cbn [negb] in E2.
      - stepn E2 u5 G5. injection E2 as <-. split; [auto|]. split; [auto|]. split; [eauto|]. apply (go_own _ _ _ _ _ _ _ _ G).
      - stepg E2 Q1. stepg E2 Q2. stepn E2 q3 Q3. rewrite Q2 in *.
        destruct (VAL1 _ Q1) as (v & Dv & Sv).
        destruct (resync_settles e ck w1 c1 _ v _ _ (fun t => csub t (s_lamports s)) ks w2 OK RY1 C1 Sv Dv ND ltac:(apply KS'; right; left; auto) A1 NPA
          ltac:(intros y t YB T; apply csub_ok in T as [T1 T2]; clear - YB T1 T2; lia) E2) as (A2 & (l2 & G2') & C2 & _).
        split; [apply (go_ready _ _ _ _ _ _ _ _ G2')|]. split; [auto|]. split; [auto|].
        intros k. rewrite (go_own _ _ _ _ _ _ _ _ G2'). apply (go_own _ _ _ _ _ _ _ _ G). }
    apply bind_panic in H as [H|(w3 & E3 & H)]; [|destruct w3 as [[w3 cv] cs]; nope H].
    (* joining *)
    unfold join_current in H. destruct (N.eqb_spec (vw_vote vw) 0) as [V0|V0]; cbn [negb] in H; [discriminate|].
    pstep H q2 Q2. apply require_ok in Q2. b2p Q2. rewrite Q2 in *.
    destruct (N.eqb_spec (own (get w2 (e_val e (vw_vote vw) (hs_config a)))) (e_prog e)) as [O|]; [|discriminate].
    destruct (val_here _ _ _ _ OK (re_sane _ _ _ RY2) O) as (v & Dv & _ & Sv).
    pstep H q3 Q3. apply bind_panic in H as [H|(w3 & _ & H)]; [|discriminate]. revert H.
    refine (resync_never e ck w2 c2 _ v _ _ _ ks (re_wf _ _ _ RY2) C2 Sv _ A2 _); [|intros t; apply np_add64].
    apply KS'. right. right. rewrite <- O2. auto.
Qed.

Lemma panics_only e cx c w : env_ok e -> inv e w -> total_lamports w < U64 ->
  (forall k, paid_by c k -> k <> config_of c) -> handler e cx c w = Panic ->
  (exists a, c = CValidatorSyncAuthority a /\ forall v, dat (get w (sy_stake a)) <> DVal v) \/
  ~ affordable e w (config_of c) (settled_by e cx w c).
Proof.
  intros OK I TT PB H. pose proof (i_wf _ _ I) as WF.
  destruct c; cbn [handler config_of settled_by] in *;
    lazymatch goal with
    | H : validator_sync_authority _ _ _ _ = _ |- _ => idtac
    | _ => right; intros (ks & ND & KS & A); revert H
    end.
  - intros H. unfold initialize_config in H. nope H.
  - intros H. unfold initialize_validator_stake in H. nope H.
  - unfold validator_stake_tokens. intros H. pstep H c E. apply load_config_ok in E as C. pstep H v EV.
    apply load_val_ok in EV as (O & D & K). revert H.
    exact (stake_never _ _ _ _ _ _ _ _ ks WF C (val_stake_of _ _ _ _ _ O D K) (KS _ eq_refl) A).
  - now apply holder_never.
  - unfold harvest_validator_rewards. intros H. pstep H c E. apply load_config_ok in E as C. pstep H v EV.
    apply load_val_ok in EV as (O & D & K). pstep H u1 G1. cbv zeta in H. pstep H u2 G2. revert H.
    exact (harvest_never _ _ _ _ _ _ _ _ _ ks WF C (val_stake_of _ _ _ _ _ O D K) (KS _ eq_refl) A).
  - unfold slash_validator_stake. intros H. pstep H c E. apply load_config_ok in E as C. pstep H v EV.
    apply load_val_ok in EV as (O & D & K). revert H.
    exact (slash_never _ _ _ _ _ _ _ _ _ ks OK I C (val_stake_of _ _ _ _ _ O D K) (KS _ eq_refl) A).
  - intros H. unfold set_authority_ix in H. nope H.
  - intros H. unfold update_config in H. nope H.
  - apply init_sol_never; [auto|apply I].
  - unfold sol_staker_stake_tokens. intros H. pstep H c E. apply load_config_ok in E as C. pstep H s EV.
    apply load_sol_ok in EV as (O & D & K). revert H.
    exact (stake_never _ _ _ _ _ _ _ _ ks WF C (sol_stake_of _ _ _ _ _ O D K) (KS _ eq_refl) A).
  - exact (harvest_sol_never _ _ _ _ ks OK I TT ND KS PB A).
  - exact (unstake_never _ _ _ _ _ ks I (KS _ eq_refl) A).
  - unfold slash_sol_staker_stake. intros H. pstep H c E. apply load_config_ok in E as C. pstep H s EV.
    apply load_sol_ok in EV as (O & D & K). revert H.
    exact (slash_never _ _ _ _ _ _ _ _ _ ks OK I C (sol_stake_of _ _ _ _ _ O D K) (KS _ eq_refl) A).
  - exact (move_never _ _ _ _ _ ks OK I TT ND (KS _ (or_introl eq_refl)) (KS _ (or_intror eq_refl)) (PB _ eq_refl) A).
  - unfold validator_override. intros H. pstep H c E. apply load_config_ok in E as C. pstep H u1 G1. pstep H u2 G2. pstep H u3 G3.
    pstep H v EV. apply load_val_ok in EV as (O & D & K). cbv zeta in H.
    apply bind_panic in H as [H|(w1 & _ & H)]; [|nope H]. revert H.
    exact (harvest_never _ _ _ _ _ _ _ _ _ ks WF C (val_stake_of _ _ _ _ _ O D K) (KS _ eq_refl) A).
  - left. exists a. split; [auto|]. intros v D. unfold validator_sync_authority in H. pstep H c E. pstep H u1 G1.
    rewrite D in H. cbn [unpack_val bind] in H. nope H.
Qed.
