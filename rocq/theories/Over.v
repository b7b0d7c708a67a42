(** Which internal steps can overflow, and when. *)
From Verif Require Import Base Types Layout Instr Math External Processor Runtime History Spec SpecReward SpecLive
  WorldLemmas Effects Handlers Evolve Sane Wf Arith Totals Nets Caps Stakers Deposits Inv Rewards Collect Progress
  Live LiveMore LiveStake LiveTokens Can SpecError Errors PropError SpecOver.

Definition over {A} (P : Prop) (r : result A) : Prop := r = Err ArithmeticOverflow -> P.
Lemma over_bind {A B} (P : Prop) (r : result A) (f : A -> result B) :
  over P r -> (forall a, r = Ok a -> over P (f a)) -> over P (bind r f).
Proof. intros R F H. destruct r as [a|y|]; simpl in H; [apply (F a eq_refl H)|injection H as ->; auto|discriminate]. Qed.
Lemma over_mono {A} (P Q : Prop) (r : result A) : (P -> Q) -> over P r -> over Q r.
Proof. intros I H E. auto. Qed.
Lemma over_errs {A} (P : Prop) (r : result A) : errs (fun x => x <> ArithmeticOverflow) r -> over P r.
Proof. intros H E. exfalso. exact (H _ E eq_refl). Qed.
Notation calm r := (forall P, over P r).
(* one step of a function without arithmetic *)
Ltac quiet := intros ?P; apply over_errs;
  repeat match goal with
  | |- errs _ (Ok _) => apply errs_ok
  | |- errs _ Panic => apply errs_panic
  | |- errs _ (assert _) => apply errs_assert
  | |- errs _ (require _ _) => apply errs_require; intros _; discriminate
  | |- errs _ (Err _) => apply errs_err; discriminate
  | |- errs _ (bind _ _) => apply errs_bind; [|intros ? _]
  | |- errs _ (if _ then _ else _) => apply errs_if; intros _
  | |- errs _ (match ?x with _ => _ end) => destruct x
  | |- errs _ ?f => unfold f
  end.
Lemma require_calm b x : x <> ArithmeticOverflow -> calm (require b x).
Proof. intros N P E. destruct b; simpl in E; [discriminate|]. congruence. Qed.
Lemma assert_calm b : calm (assert b).
Proof. intros P E. destruct b; discriminate. Qed.
Lemma ok_calm {A} (a : A) : calm (Ok a).
Proof. intros P E. discriminate. Qed.
Lemma unpack_config_calm d : calm (unpack_config d). Proof. unfold unpack_config. quiet. Qed.
Lemma unpack_val_calm d : calm (unpack_val d). Proof. unfold unpack_val. quiet. Qed.
Lemma unpack_sol_calm d : calm (unpack_sol d). Proof. unfold unpack_sol. quiet. Qed.
Lemma unpack_token_calm d : calm (unpack_token d). Proof. unfold unpack_token. quiet. Qed.
Lemma unpack_mint_calm d : calm (unpack_mint d). Proof. unfold unpack_mint. quiet. Qed.
Lemma unpack_holder_calm d : calm (unpack_holder d). Proof. unfold unpack_holder. quiet. Qed.
Lemma vote_calm d : calm (vote_withdrawer d). Proof. unfold vote_withdrawer. quiet. Qed.
Lemma del_calm d : calm (del_of d). Proof. unfold del_of. quiet. Qed.
Lemma load_config_calm e w k : calm (load_config e w k). Proof. unfold load_config, unpack_config. quiet. Qed.
Lemma load_val_calm e w k ck : calm (load_val e w k ck). Proof. unfold load_val, unpack_val. quiet. Qed.
Lemma load_sol_calm e w k ck : calm (load_sol e w k ck). Proof. unfold load_sol, unpack_sol. quiet. Qed.
Lemma load_any_calm e w k ck : calm (load_any e w k ck). Proof. unfold load_any, unpack_val, unpack_sol. cbv zeta. quiet. Qed.
Lemma cpi_calm w0 w held ks : calm (cpi_check w0 w held ks). Proof. unfold cpi_check. quiet. Qed.
Lemma runtime_calm cx w w' : calm (runtime_check cx w w'). Proof. unfold runtime_check. quiet. Qed.
Lemma duna_calm e w s d h : calm (check_duna e w s d h). Proof. unfold check_duna. quiet. Qed.
Lemma assign_calm s w k o : calm (system_assign s w k o). Proof. unfold system_assign. quiet. Qed.
Lemma allocate_calm s w k o : calm (system_allocate s w k o). Proof. unfold system_allocate. quiet. Qed.
Lemma excess_calm e w a b : calm (transfer_excess e w a b). Proof. unfold transfer_excess. cbv zeta. quiet. Qed.
Lemma transfer_calm e s w a b c d n : calm (token_transfer e s w a b c d n).
Proof. unfold token_transfer, token_at, mint_at, token_authorise. cbv zeta. quiet. Qed.
Lemma burn_calm e s w a b c n : calm (token_burn e s w a b c n).
Proof. unfold token_burn, token_at, mint_at, token_authorise. cbv zeta. quiet. Qed.
Lemma rharvest_calm e s w a b c d o x : calm (rewards_harvest e s w a b c d o x).
Proof. unfold rewards_harvest, rewards_checked, token_at, pool_reward, pool_pay. cbv zeta. quiet. Qed.
Lemma deposit_calm e s w a b c d o x y z u : calm (rewards_deposit e s w a b c d o x y z u).
Proof.
  unfold rewards_deposit, rewards_checked, token_at, pool_reward, pool_pay, token_transfer, token_at, mint_at, token_authorise.
  cbv zeta. quiet.
Qed.
Lemma withdraw_calm e s w a b c d o x y z u : calm (rewards_withdraw e s w a b c d o x y z u).
Proof.
  unfold rewards_withdraw, rewards_checked, token_at, pool_reward, pool_pay, token_transfer, token_at, mint_at, token_authorise.
  cbv zeta. quiet.
Qed.

(** ** Settling *)
Lemma harvest_afforded e w ck vhr auth sk d keeper w' : wf_world w -> stake_of e w ck sk = Some d ->
  harvest e w ck vhr auth (e_vault e ck) sk keeper = Ok w' ->
  auth = authority d /\ vhr = e_holder e (e_vault e ck) /\ (exists h, dat (get w (e_holder e (e_vault e ck))) = DHolder h) /\
  pending e w ck sk + e_rent e CONFIG_LEN <= lam (get w ck).
Proof.
  intros WF S H. apply harvest_ok in H. destruct (harvested_net _ _ _ _ _ _ _ _ _ H) as (c & d' & h & rpt & sr & hr & RD & AU & VH & _).
  destruct RD as [C D HH L R SR HR LA RE]. pose proof (stake_of_some _ _ _ _ _ S) as (_ & D' & _). rewrite D' in D. injection D as <-.
  split; [auto|]. split; [auto|]. split; [eauto|].
  assert (cfg_acc c < U128) as AB by (pose proof (wf_dat _ ck WF) as W; rewrite C in W; simpl in W; tauto).
  apply eligible_ok in SR as [SR _]. apply eligible_ok in HR as [HR _].
  rewrite (acc_now_rpt _ _ _ AB R), since_wsub in SR. rewrite since_wsub in HR.
  assert (pending e w ck sk = sr + hr) as P.
  { unfold pending. rewrite S, C. unfold stake_claim, holder_claim, holder_acc. rewrite HH.
    change SCALE with (10 ^ 18) in *. rewrite <- SR, <- HR. reflexivity. }
  lia.
Qed.

Lemma sync_config_over w ck c : wf_world w -> dat (get w ck) = DConfig c -> cfg_last c <= lam (get w ck) ->
  exists rpt, sync_config_lamports w ck = Ok (setd w ck (DConfig (settle_cfg c rpt (lam (get w ck))))) /\
    wadd128 (cfg_acc c) rpt = acc_now (lam (get w ck)) c.
Proof.
  intros WF C L. pose proof (wf_lam _ ck WF) as LB.
  assert (cfg_acc c < U128) as AB by (pose proof (wf_dat _ ck WF) as W; rewrite C in W; simpl in W; tauto).
  pose proof (rpt_exact (lam (get w ck) - cfg_last c) (cfg_effective c) ltac:(lia)) as RP.
  eexists. split; [|exact (acc_now_rpt _ _ _ AB RP)].
  unfold sync_config_lamports. rewrite C. cbn [unpack_config]. rewrite bind_Ok, csub_le by auto. rewrite bind_Ok, RP, bind_Ok.
  reflexivity.
Qed.

Lemma harvest_over e w ck vhr auth sk keeper c d : wf_world w -> total_lamports w < U64 -> config_at e w ck c ->
  cfg_last c <= lam (get w ck) -> stake_of e w ck sk = Some d -> auth <> ck -> keeper <> Some ck ->
  over (lam (get w ck) < pending e w ck sk) (harvest e w ck vhr auth (e_vault e ck) sk keeper).
Proof.
  intros WF TT [CO C] L S NA NK. destruct (N.lt_ge_cases (lam (get w ck)) (pending e w ck sk)) as [LT|GE]; [intros _; exact LT|].
  intros H. exfalso. revert H. fold (over False (harvest e w ck vhr auth (e_vault e ck) sk keeper)).
  pose proof (wf_lam _ ck WF) as LB. pose proof (stake_of_some _ _ _ _ _ S) as (SO & SD & SB).
  assert (sk <> ck) as NS by (intros ->; rewrite C in SD; discriminate).
  destruct (sync_config_over _ _ _ WF C L) as (rpt & SY & AN).
  unfold pending in GE. rewrite S, C in GE. unfold stake_claim, holder_claim in GE.
  set (sr := since (acc_now (lam (get w ck)) c) (last_stake d) * effective d / 10 ^ 18) in *.
  set (hr := since (holder_acc e w ck) (last_holder d) * staked d / 10 ^ 18) in *.
  unfold harvest. rewrite SD. apply over_bind; [apply ok_calm|intros d' [= <-]].
  apply over_bind; [apply require_calm; discriminate|intros _ _].
  rewrite SY, bind_Ok. ws. rewrite N.eqb_refl. cbn [unpack_config]. rewrite bind_Ok.
  cbn [settle_cfg cfg_acc set_cfg_last set_cfg_acc cfg_sync]. rewrite AN, eligible_eq, since_wsub. change SCALE with (10 ^ 18). fold sr.
  destruct (N.ltb_spec sr U64) as [_|X]; [|lia]. rewrite bind_Ok.
  apply over_bind; [apply require_calm; discriminate|intros u VH]. apply require_ok in VH. b2p VH.
  apply over_bind; [apply unpack_holder_calm|intros h HH].
  assert (dat (get w (e_holder e (e_vault e ck))) = DHolder h) as HD.
  { unfold unpack_holder in HH. wsi HH. rewrite VH in HH. destruct (N.eqb_spec ck (e_holder e (e_vault e ck))) as [E|NE]; [discriminate|].
    destruct (dat (get w (e_holder e (e_vault e ck)))); try discriminate. now injection HH as ->. }
  assert (holder_acc e w ck = h_last h) as HA by (unfold holder_acc; now rewrite HD).
  rewrite eligible_eq, since_wsub, <- HA. change SCALE with (10 ^ 18). fold hr.
  destruct (N.ltb_spec hr U64) as [_|X]; [|lia]. rewrite bind_Ok.
  rewrite add64_lt by lia. rewrite bind_Ok. cbv zeta. unfold put_del. ws. rewrite csub_le by lia. rewrite bind_Ok.
  apply over_bind; [apply assert_calm|intros u2 RE]. clear u u2 RE.
  assert (forall k, k <> ck -> lam (get w k) + (sr + hr) < U64) as ROOM.
  { intros k NE. pose proof (total_ge2 w k ck NE). lia. }
  destruct keeper as [kp|].
  - assert (kp <> ck) as NKP by congruence. pose proof (ROOM _ NKP). pose proof (ROOM _ NA).
    rewrite add64_lt by (ws; lia). rewrite !bind_Ok. rewrite csub_le by lia. rewrite bind_Ok.
    ws. rewrite add64_lt; [rewrite bind_Ok; apply ok_calm|]. destruct (N.eqb_spec kp auth) as [->|]; lia.
  - pose proof (ROOM _ NA). rewrite bind_Ok. rewrite csub_le by lia. rewrite bind_Ok.
    ws. rewrite N.sub_0_r. rewrite add64_lt by lia. rewrite bind_Ok. apply ok_calm.
Qed.

(** What is left when a settlement has succeeded. *)
Lemma prefix_then e ck w c sk d auth vhr w' : env_ok e -> inv e w -> total_lamports w < U64 -> config_at e w ck c ->
  stake_of e w ck sk = Some d -> auth <> ck -> harvest e w ck vhr auth (e_vault e ck) sk None = Ok w' ->
  ready e ck w /\ exists c1 d1, prefix e ck sk auth w c d w' c1 d1.
Proof.
  intros OK I TT C S NA H. destruct (harvest_afforded _ _ _ _ _ _ _ _ _ (i_wf _ _ I) S H) as (AU & VH & (h & HH) & P).
  pose proof (ready_inv _ _ _ _ _ I C HH TT) as RY. split; [exact RY|].
  destruct (prefix_goes e ck w c sk d auth vhr OK RY C S AU NA VH) as (w1 & c1 & d1 & R & PX).
  { exists [sk]. split; [apply NoDup_singleton|]. split; [intros x ->; left; auto|]. simpl. lia. }
  rewrite H in R. injection R as <-. eauto.
Qed.
Lemma harvest_then e ck w c sk d auth vhr keeper w' : env_ok e -> ready e ck w -> config_at e w ck c ->
  stake_of e w ck sk = Some d -> auth <> ck -> keeper <> Some ck -> harvest e w ck vhr auth (e_vault e ck) sk keeper = Ok w' ->
  pending e w ck sk <= lam (get w ck) /\
  gone e ck sk auth keeper (ck :: sk :: auth :: opt_list keeper) w w' /\
    exists a h, dat (get w' sk) = upd_del (dat (get w sk)) (set_lasts d h a) /\
    exists a l, dat (get w' ck) = DConfig (set_cfg_last (set_cfg_acc c a) l).
Proof.
  intros OK RY C S NA NK H. destruct (harvest_afforded _ _ _ _ _ _ _ _ _ (re_wf _ _ _ RY) S H) as (AU & VH & _ & P).
  destruct (harvest_goes e ck w c sk d auth vhr keeper OK RY C S AU NA NK VH P) as (w1 & R & _ & G & a & h & D1 & X).
  rewrite H in R. injection R as <-. split; [lia|]. split; [exact G|]. exists a, h. auto.
Qed.

(** ** Capping *)
Lemma sync_over w ck sk l lmin c d : dat (get w ck) = DConfig c -> del_of (dat (get w sk)) = Ok d ->
  effective d <= cfg_effective c -> cfg_effective c - effective d + staked d < U64 -> N.max l lmin < U64 ->
  over (boundless (N.max l lmin)) (sync_effective w ck sk l lmin).
Proof.
  intros C D E R L H. unfold boundless. change (2 ^ 64) with U64. destruct (N.lt_ge_cases (cap (N.max l lmin)) U64) as [K|K]; [|exact K].
  exfalso. destruct (sync_runs w ck sk l lmin c d C D E R L K) as [w' R']. congruence.
Qed.
Lemma sync_capped w ck sk l lmin w' : sync_effective w ck sk l lmin = Ok w' -> cap (N.max l lmin) < U64.
Proof.
  intros H. unfold sync_effective in H. stepn H c C. stepn H d D. stepn H x X. clear H.
  unfold calculate_maximum_stake, STAKE_FACTOR, STAKE_SCALING_FACTOR in X. unfold cap. destruct (N.eqb_spec (N.max l lmin) 0) as [->|NZ]; [reflexivity|].
  stepn X p Q. apply mul128_ok in Q as [-> _]. apply to64_ok in X as [_ X]. now rewrite (N.mul_comm 13).
Qed.

(** ** The handlers *)
Ltac calm := first [ apply require_calm; discriminate | apply assert_calm | apply ok_calm | apply unpack_config_calm | apply unpack_val_calm
  | apply unpack_sol_calm | apply unpack_token_calm | apply unpack_mint_calm | apply vote_calm | apply del_calm | apply load_config_calm
  | apply load_val_calm | apply load_sol_calm | apply load_any_calm | apply cpi_calm | apply runtime_calm | apply duna_calm | apply assign_calm
  | apply allocate_calm | apply excess_calm | apply transfer_calm | apply burn_calm | apply rharvest_calm | apply deposit_calm | apply withdraw_calm ].
Lemma short_one e w ck k : lam (get w ck) < pending e w ck k -> short e w ck [k].
Proof. unfold short. simpl. lia. Qed.
Lemma limits_over e w ck sk d l lmin : stake_of e w ck sk = Some d ->
  ((exists v, dat (get w sk) = DVal v /\ l = v_total v /\ lmin = v_min v) \/
   (exists s, dat (get w sk) = DSol s /\ l = s_lamports s /\ lmin = 0)) ->
  boundless (N.max l lmin) -> limitless e w sk.
Proof.
  intros S LC B. apply stake_of_some in S as (SO & _). destruct LC as [(v & D & -> & ->)|(s & D & -> & ->)].
  - left. exists v. split; [split; auto|exact B].
  - right. exists s. split; [split; auto|]. now rewrite N.max_0_r in B.
Qed.
Lemma limits_u64 w sk l lmin : wf_world w ->
  ((exists v, dat (get w sk) = DVal v /\ l = v_total v /\ lmin = v_min v) \/
   (exists s, dat (get w sk) = DSol s /\ l = s_lamports s /\ lmin = 0)) -> N.max l lmin < U64.
Proof.
  intros WF LC. pose proof (wf_dat _ sk WF) as W. destruct LC as [(v & D & -> & ->)|(s & D & -> & ->)]; rewrite D in W; cbn in W; lia.
Qed.
(* the limits are read off the delegation's account after the settlement *)
Lemma limits_settled w1 w sk d h a : del_of (dat (get w sk)) = Ok d -> dat (get w1 sk) = upd_del (dat (get w sk)) (set_lasts d h a) ->
  forall dn l lmin, match dat (get (put_del w1 sk dn) sk) with
    | DVal v => (v_total v, v_min v) | DSol s => (s_lamports s, 0) | _ => (0, 0) end = (l, lmin) ->
  ((exists v, dat (get w sk) = DVal v /\ l = v_total v /\ lmin = v_min v) \/
   (exists s, dat (get w sk) = DSol s /\ l = s_lamports s /\ lmin = 0)).
Proof.
  intros D E dn l lmin. unfold put_del. ws. rewrite N.eqb_refl, E. destruct (dat (get w sk)); try discriminate; cbn; intros [= <- <-]; eauto 6.
Qed.
Lemma backed_stake e w ck sk d : inv e w -> stake_of e w ck sk = Some d -> staked d <= deposit e w ck.
Proof. intros I S. pose proof (sum_of_ge e w ck staked sk d S). pose proof (i_backed _ _ I ck). lia. Qed.

Lemma stake_over e cx a b n w c d : env_ok e -> inv e w -> total_lamports w < U64 -> config_at e w (st_config a) c ->
  stake_of e w (st_config a) (st_stake a) = Some d ->
  over (overflows e cx w (CValidatorStakeTokens a n)) (stake_tokens e cx a b n w).
Proof.
  intros OK I TT C S. cbn [overflows]. set (Q := In _ _ \/ _).
  destruct (N.eq_dec (st_authority a) (st_config a)) as [E|NA]; [intros _; left; left; exact E|].
  destruct (N.le_gt_cases (2 ^ 64) (deposit e w (st_config a) + n)) as [B|ROOM]; [intros _; right; right; right; exact B|].
  change (2 ^ 64) with U64 in ROOM. pose proof (backed_stake _ _ _ _ _ I S) as BK. pose proof (i_backed _ _ I (st_config a)) as BS.
  pose proof S as S'. apply stake_of_some in S' as (SO & SD & SB). pose proof (i_lamp _ _ I _ _ C) as LL.
  unfold stake_tokens. cbv zeta.
  apply over_bind; [|intros w1 W1].
  { eapply over_mono; [|exact (harvest_over e w _ _ _ _ None c d (i_wf _ _ I) TT C (proj1 LL) S NA ltac:(discriminate))]. intros H. right. left. now apply short_one. }
  destruct (prefix_then _ _ _ _ _ _ _ _ _ OK I TT C S NA W1) as (RY & c1 & d1 & [G1 C1 (ca & cl & CE) D1 (dh & da & DE & DD) S1 [RM1 RM2]]).
  apply over_bind; [calm|intros c2 C2]. do 2 (apply over_bind; [calm|intros ? _]).
  apply over_bind; [calm|intros t T]. do 2 (apply over_bind; [calm|intros ? _]). apply over_bind; [calm|intros m _].
  apply over_bind; [calm|intros ? _]. rewrite D1, bind_Ok.
  assert (staked d1 = staked d /\ effective d1 = effective d) as [SE EE] by (rewrite DE; auto).
  rewrite add64_lt by lia. rewrite bind_Ok.
  destruct (match dat (get (put_del w1 (st_stake a) (set_staked d1 (staked d1 + n))) (st_stake a)) with
    | DVal v => (v_total v, v_min v) | DSol s => (s_lamports s, 0) | _ => (0, 0) end) as [l lmin] eqn:LIM.
  rewrite DE in DD. pose proof (limits_settled _ _ _ _ _ _ SD DD _ _ _ LIM) as LC.
  assert (st_stake a <> st_config a) as NS by (intros E; rewrite E, (proj2 C) in SD; discriminate).
  apply over_bind; [|intros w2 _].
  { eapply over_mono; [intros H; right; right; left; eapply limits_over; [exact S|exact LC|exact H]|].
    apply sync_over with c1 (set_staked d1 (staked d1 + n)).
    - unfold put_del. ws. destruct (N.eqb_spec (st_stake a) (st_config a)); [congruence|exact C1].
    - unfold put_del. ws. rewrite N.eqb_refl. apply del_of_upd' with d1. exact D1.
    - cbn. rewrite CE. cbn. lia.
    - cbn. rewrite CE. cbn. lia.
    - eapply limits_u64; [apply I|exact LC]. }
  apply over_bind; [calm|intros ? _]. apply over_bind; [calm|intros ? _]. apply over_bind; [calm|intros ? _]. calm.
Qed.
Lemma harvest_val_over e cx a w : env_ok e -> inv e w -> total_lamports w < U64 ->
  over (overflows e cx w (CHarvestValidatorRewards a)) (harvest_validator_rewards e cx a w).
Proof.
  intros OK I TT. cbn [overflows]. set (Q := In _ _ \/ _).
  destruct (N.eq_dec (hv_authority a) (hv_config a)) as [E|NA]; [intros _; left; left; exact E|].
  unfold harvest_validator_rewards. cbv zeta. apply over_bind; [calm|intros c C]. apply load_config_at in C.
  apply over_bind; [calm|intros v V]. apply load_val_at in V as [V S]. do 2 (apply over_bind; [calm|intros ? _]).
  eapply over_mono; [|exact (harvest_over e w _ _ _ _ None c _ (i_wf _ _ I) TT C (proj1 (i_lamp _ _ I _ _ C)) S NA ltac:(discriminate))]. intros H. right. now apply short_one.
Qed.
Lemma override_over e cx a n w : env_ok e -> inv e w -> total_lamports w < U64 -> n < U64 ->
  over (overflows e cx w (CValidatorOverride a n)) (validator_override e cx a n w).
Proof.
  intros OK I TT NB. cbn [overflows]. set (Q := In _ _ \/ _).
  destruct (N.eq_dec (ov_stake_auth a) (ov_config a)) as [E|NA]; [intros _; left; left; exact E|].
  unfold validator_override. cbv zeta. apply over_bind; [calm|intros c C]. apply load_config_at in C.
  do 3 (apply over_bind; [calm|intros ? _]). apply over_bind; [calm|intros v V]. apply load_val_at in V as [V S].
  apply over_bind; [|intros w1 W1].
  { eapply over_mono; [|exact (harvest_over e w _ _ _ _ None c _ (i_wf _ _ I) TT C (proj1 (i_lamp _ _ I _ _ C)) S NA ltac:(discriminate))]. intros H. right. left. now apply short_one. }
  destruct (prefix_then _ _ _ _ _ _ _ _ _ OK I TT C S NA W1) as (RY & c1 & d1 & [G1 C1 (ca & cl & CE) D1 (dh & da & DE & DD) S1 [RM1 RM2]]).
  rewrite (proj2 V) in DD. cbn [upd_del] in DD. rewrite DD. cbn [unpack_val]. rewrite bind_Ok. cbn [v_total set_v_del].
  pose proof (wf_dat _ (ov_stake a) (i_wf _ _ I)) as W. rewrite (proj2 V) in W. cbn in W.
  assert (ov_stake a <> ov_config a) as NS by (intros E; destruct V as [_ V], C as [_ C]; congruence).
  eapply over_mono; [intros H; right; right; exists v; split; [exact V|exact H]|].
  apply sync_over with c1 d1.
  - ws. destruct (N.eqb_spec (ov_stake a) (ov_config a)); [congruence|exact C1].
  - ws. rewrite N.eqb_refl. reflexivity.
  - rewrite DE, CE. cbn. lia.
  - rewrite DE, CE. cbn. pose proof (re_sum _ _ _ RY). lia.
  - lia.
Qed.
Lemma unstake_over e cx a n w : env_ok e -> inv e w -> total_lamports w < U64 ->
  over (overflows e cx w (CUnstakeTokens a n)) (unstake_tokens e cx a n w).
Proof.
  intros OK I TT. cbn [overflows]. set (Q := In _ _ \/ _).
  destruct (N.eq_dec (un_authority a) (un_config a)) as [E|NA]; [intros _; left; left; exact E|].
  unfold unstake_tokens. cbv zeta. apply over_bind; [calm|intros c C]. apply load_config_at in C.
  do 2 (apply over_bind; [calm|intros ? _]). apply over_bind; [calm|intros t T]. apply over_bind; [calm|intros ? _].
  apply over_bind; [calm|intros ? OW]. apply require_ok in OW. b2p OW.
  apply over_bind; [calm|intros [[p l] lm] LA]. destruct (load_any_at _ _ _ _ _ _ _ OW LA) as (_ & _ & YS).
  apply over_bind; [calm|intros ? K]. apply require_ok in K. b2p K. destruct (YS K) as (d & S).
  pose proof S as S'. apply stake_of_some in S' as (SO & SD & SB).
  do 2 (apply over_bind; [calm|intros ? _]). do 2 (apply over_bind; [calm|intros ? _]). apply over_bind; [calm|intros m _].
  destruct (load_any_runs _ _ _ _ _ S) as (l' & lm' & LA' & LC). rewrite LA in LA'. injection LA' as _ <- <-.
  apply over_bind; [|intros w1 W1].
  { eapply over_mono; [|exact (harvest_over e w _ _ _ _ None c _ (i_wf _ _ I) TT C (proj1 (i_lamp _ _ I _ _ C)) S NA ltac:(discriminate))]. intros H. right. left. now apply short_one. }
  destruct (prefix_then _ _ _ _ _ _ _ _ _ OK I TT C S NA W1) as (RY & c1 & d1 & [G1 C1 (ca & cl & CE) D1 (dh & da & DE & DD) S1 [RM1 RM2]]).
  rewrite D1, bind_Ok, C1. cbn [unpack_config]. rewrite bind_Ok. do 2 (apply over_bind; [calm|intros ? ?]).
  match goal with H : require (n <=? _) _ = _ |- _ => apply require_ok in H; b2p H end.
  assert (staked d1 = staked d /\ effective d1 = effective d) as [SE EE] by (rewrite DE; auto).
  pose proof (wf_dat _ (un_stake a) (i_wf _ _ I)) as W. pose proof (wf_dat _ (un_config a) (i_wf _ _ I)) as WC. rewrite (proj2 C) in WC. cbn in WC.
  assert (staked d < U64) as SB64 by (apply del_of_ok in SD as [(v & E & <-)|(v & E & <-)]; rewrite E in W; apply W).
  assert (cfg_bps c1 <= 10000) as BP.
  { rewrite CE. cbn. destruct (sane_cfg _ _ (i_sane _ _ I) _ _ C) as (_ & BB & _). exact BB. }
  apply over_bind.
  { intros HM. exfalso. unfold max_deactivation_amount in HM. rewrite mul128_small in HM by (rewrite SE; nia). rewrite bind_Ok in HM.
    rewrite to64_small in HM; [discriminate|]. apply N.div_lt_upper_bound; [lia|]. rewrite SE. nia. }
  intros x _. apply over_bind; [calm|intros ? _]. rewrite csub_le by auto. rewrite bind_Ok.
  assert (un_stake a <> un_config a) as NS by (intros E; rewrite E, (proj2 C) in SD; discriminate).
  apply over_bind; [|intros w2 _].
  { eapply over_mono; [intros BL; right; right; eapply limits_over; [exact S|exact LC|exact BL]|].
    match goal with |- over _ (sync_effective (put_del _ _ ?dn) _ _ _ _) => apply sync_over with c1 dn end.
    - unfold put_del. ws. destruct (N.eqb_spec (un_stake a) (un_config a)); [congruence|exact C1].
    - unfold put_del. ws. rewrite N.eqb_refl. apply del_of_upd' with d1. exact D1.
    - cbn. rewrite CE. cbn. lia.
    - cbn. rewrite CE. cbn. pose proof (re_sum _ _ _ RY). lia.
    - eapply limits_u64; [apply I|exact LC]. }
  apply over_bind; [calm|intros ? _]. apply over_bind; [calm|intros ? _]. apply over_bind; [calm|intros ? _]. calm.
Qed.
Lemma burn_keeps_del e s w src mnt auth n w' k : own (get w k) = e_prog e -> env_ok e -> token_burn e s w src mnt auth n = Ok w' ->
  dat (get w' k) = dat (get w k).
Proof.
  intros O OK H. apply token_burn_ok in H. destruct H. rewrite Hdat.
  destruct (prog_ids _ OK) as (_ & NT & _). keys; congruence.
Qed.
Lemma slash_over e cx a n w c l lm d : env_ok e -> inv e w -> total_lamports w < U64 -> config_at e w (sl_config a) c ->
  stake_of e w (sl_config a) (sl_stake a) = Some d ->
  ((exists v, dat (get w (sl_stake a)) = DVal v /\ l = v_total v /\ lm = v_min v) \/
   (exists s, dat (get w (sl_stake a)) = DSol s /\ l = s_lamports s /\ lm = 0)) ->
  over (overflows e cx w (CSlashValidatorStake a n)) (slash_stake e cx a c l lm n w).
Proof.
  intros OK I TT C S LC. cbn [overflows]. set (Q := In _ _ \/ _).
  destruct (N.eq_dec (sl_authority a) (sl_config a)) as [E|NA]; [intros _; left; left; exact E|].
  pose proof S as S'. apply stake_of_some in S' as (SO & SD & SB).
  unfold slash_stake. cbv zeta.
  assert (e_create_vault e (sl_config a) (cfg_bump c) = Some (e_vault e (sl_config a))) as CV.
  { destruct (sane_cfg _ _ (i_sane _ _ I) _ _ C) as (_ & _ & -> & _). apply (ok_bump _ OK). }
  rewrite CV, bind_Ok. apply over_bind; [calm|intros ? VA]. apply require_ok in VA. b2p VA. rewrite VA.
  apply over_bind; [|intros w1 W1].
  { eapply over_mono; [|exact (harvest_over e w _ _ _ _ None c _ (i_wf _ _ I) TT C (proj1 (i_lamp _ _ I _ _ C)) S NA ltac:(discriminate))]. intros H. right. left. now apply short_one. }
  destruct (prefix_then _ _ _ _ _ _ _ _ _ OK I TT C S NA W1) as (RY & c1 & d1 & [G1 C1 (ca & cl & CE) D1 (dh & da & DE & DD) S1 [RM1 RM2]]).
  rewrite C1. cbn [unpack_config]. rewrite bind_Ok. do 4 (apply over_bind; [calm|intros ? _]). apply over_bind; [calm|intros t T].
  apply over_bind; [calm|intros ? _].
  assert (staked d1 = staked d /\ effective d1 = effective d) as [SE EE] by (rewrite DE; auto).
  assert (sl_stake a <> sl_config a) as NS by (intros E; rewrite E, (proj2 C) in SD; discriminate).
  set (dn := set_staked d1 (staked d1 - N.min n (staked d1))).
  apply over_bind.
  { unfold process_slash_for_delegation. do 2 (apply over_bind; [calm|intros ? _]). rewrite D1, bind_Ok. cbv zeta.
    rewrite csub_le by lia. rewrite bind_Ok. destruct (0 <? _); [|calm]. apply over_bind; [calm|intros m _]. apply over_bind; [calm|intros ? _]. calm. }
  intros w3 W3.
  assert (dat (get w3 (sl_config a)) = DConfig c1 /\ del_of (dat (get w3 (sl_stake a))) = Ok dn) as [C3 D3].
  { assert (dat (get (put_del w1 (sl_stake a) dn) (sl_config a)) = DConfig c1) as C2.
    { unfold put_del. ws. destruct (N.eqb_spec (sl_stake a) (sl_config a)); [congruence|exact C1]. }
    assert (del_of (dat (get (put_del w1 (sl_stake a) dn) (sl_stake a))) = Ok dn) as D2.
    { unfold put_del. ws. rewrite N.eqb_refl. apply del_of_upd' with d1. exact D1. }
    assert (forall k, own (get (put_del w1 (sl_stake a) dn) k) = own (get w k)) as O2.
    { intros k. unfold put_del. ws. apply (go_own _ _ _ _ _ _ _ _ G1). }
    unfold process_slash_for_delegation in W3. stepg W3 X1. stepg W3 X2. rewrite D1, bind_Ok in W3. cbv zeta in W3.
    rewrite csub_le in W3 by lia. rewrite bind_Ok in W3. fold dn in W3. destruct (0 <? _); [|injection W3 as <-; auto].
    stepn W3 m M. stepn W3 u U. pose proof (fun k O => burn_keeps_del _ _ _ _ _ _ _ _ k O OK W3) as BK.
    rewrite !BK; [auto| |]; rewrite O2; [exact SO|apply C]. }
  eapply over_mono; [intros BL; right; right; eapply limits_over; [exact S|exact LC|exact BL]|].
  apply sync_over with c1 dn; auto.
  - cbn. rewrite CE. cbn. lia.
  - cbn. rewrite CE. cbn. pose proof (re_sum _ _ _ RY). lia.
  - eapply limits_u64; [apply I|exact LC].
Qed.
Lemma short_of e w ck ks xs : List.NoDup xs -> incl xs ks -> lam (get w ck) < sum_over (pending e w ck) xs -> short e w ck ks.
Proof.
  intros ND IN L. unfold short. eapply N.lt_le_trans; [exact L|]. clear L.
  assert (forall ys, List.NoDup xs -> incl xs ys -> sum_over (pending e w ck) xs <= sum_over (pending e w ck) ys) as M.
  { clear ND IN. induction xs as [|x xs IH]; intros ys ND IN; simpl; [lia|]. apply NoDup_cons_iff in ND as [NI ND].
    destruct (in_split x ys) as (l1 & l2 & ->); [apply IN; left; auto|].
    assert (sum_over (pending e w ck) (l1 ++ x :: l2) = pending e w ck x + sum_over (pending e w ck) (l1 ++ l2)) as ->.
    { clear. induction l1 as [|y l1 IHl]; simpl; [reflexivity|]. rewrite IHl. lia. }
    apply N.add_le_mono_l. apply IH; [exact ND|]. intros y Iy. specialize (IN y (or_intror Iy)). apply in_app_or in IN as [H|[<-|H]].
    - apply in_or_app; auto.
    - contradiction.
    - apply in_or_app; auto. }
  apply M; [exact ND|]. intros x Ix. apply nodup_In. auto.
Qed.
Lemma move_over e cx a n w : env_ok e -> inv e w -> total_lamports w < U64 ->
  over (overflows e cx w (CSolStakerMoveTokens a n)) (sol_staker_move_tokens e cx a n w).
Proof.
  intros OK I TT. cbn [overflows]. set (Q := In _ _ \/ _).
  destruct (N.eq_dec (mv_authority a) (mv_config a)) as [E|NA]; [intros _; left; left; exact E|].
  unfold sol_staker_move_tokens. cbv zeta. apply over_bind; [calm|intros c C]. apply load_config_at in C.
  apply over_bind; [calm|intros ? _]. apply over_bind; [calm|intros s SL]. apply load_sol_at in SL as [SA S].
  apply over_bind; [calm|intros ? _]. unfold Q. clear Q.
  remember (mv_config a) as ck eqn:CK. remember (mv_source a) as sk eqn:SKE. remember (mv_dest a) as dk eqn:DKE.
  apply over_bind; [|intros w1 W1].
  { eapply over_mono; [|exact (harvest_over e w _ _ _ _ None c _ (i_wf _ _ I) TT C (proj1 (i_lamp _ _ I _ _ C)) S NA ltac:(discriminate))].
    intros H. right. left. apply (short_of _ _ _ _ [sk]); [repeat constructor; auto|intros x; simpl; tauto|simpl; lia]. }
  destruct (prefix_then _ _ _ _ _ _ _ _ _ OK I TT C S NA W1) as (RY & _).
  destruct (harvest_then _ _ _ _ _ _ _ _ None _ OK RY C S NA ltac:(discriminate) W1) as (_ & G1 & ac & ho & D1 & a' & l' & C1).
  rewrite (proj2 SA) in D1. cbn [upd_del] in D1.
  apply over_bind; [calm|intros ? OW]. apply over_bind; [calm|intros ? NE]. apply require_ok in NE. b2p NE.
  apply over_bind; [calm|intros t TL]. apply load_sol_at in TL as [TA DS1].
  pose proof (go_ready _ _ _ _ _ _ _ _ G1) as RY1. pose proof (go_coll _ _ _ _ _ _ _ _ G1) as CO1.
  assert (config_at e w1 ck (set_cfg_last (set_cfg_acc c a') l')) as CA1 by (split; [rewrite (go_own _ _ _ _ _ _ _ _ G1); apply C|auto]).
  pose proof (go_paid _ _ _ _ _ _ _ _ G1) as PD1. pose proof (go_last _ _ _ _ _ _ _ _ G1 _ C1) as LST.
  assert (stake_of e w ck dk = Some (s_del t)) as DS by (rewrite <- (co_oth _ _ _ _ _ CO1); auto).
  apply over_bind; [|intros w2 W2].
  { eapply over_mono; [|refine (harvest_over e w1 _ _ _ _ None _ _ (re_wf _ _ _ RY1) (re_tot _ _ _ RY1) CA1 _ DS1 NA ltac:(discriminate))]; [|lia].
    intros H. right. left. rewrite (collected_pending _ _ _ _ _ _ CO1) in H by auto.
    apply (short_of _ _ _ _ [sk; dk]); [|intros x; simpl; tauto|simpl; lia].
    constructor; [simpl; intros [E|[]]; congruence|repeat constructor; auto]. }
  destruct (harvest_then _ _ _ _ _ _ _ _ None _ OK RY1 CA1 DS1 NA ltac:(discriminate) W2) as (_ & G2 & ac2 & ho2 & D2 & acc2 & last2 & C2).
  rewrite (proj2 TA) in D2. cbn [upd_del] in D2.
  assert (sk <> ck) as NSC by (intros ->; destruct C as [_ C], SA as [_ SA]; congruence).
  assert (dk <> ck) as NDC by (intros ->; destruct CA1 as [_ C'], TA as [_ TA]; congruence).
  assert (dat (get w dk) = DSol t) as TD by (rewrite <- (go_dat _ _ _ _ _ _ _ _ G1); auto; apply TA).
  assert (dat (get w2 sk) = DSol (set_s_del s (set_lasts (s_del s) ho ac))) as S2.
  { rewrite (go_dat _ _ _ _ _ _ _ _ G2); auto. }
  rewrite S2, D2. cbn [unpack_sol]. rewrite !bind_Ok. cbn [s_del set_s_del s_lamports authority staked cooldown set_lasts].
  apply over_bind; [calm|intros ? _].
  destruct (N.lt_ge_cases (staked (s_del s)) n) as [LT|AM]; [intros _; right; right; right; right; exists s; auto|].
  rewrite csub_le by auto. rewrite bind_Ok.
  destruct (ready_sum2 _ _ _ _ _ _ _ _ RY C S DS ltac:(auto)) as [RM1 RM2].
  pose proof (re_sum _ _ _ RY) as SB. pose proof (re_le _ _ _ RY _ _ DS) as ED. pose proof (re_le _ _ _ RY _ _ S) as ES.
  pose proof (sum_of_ge2 e w ck staked sk _ dk _ ltac:(auto) S DS) as SG2.
  rewrite add64_lt by (clear - SG2 SB AM; lia). rewrite bind_Ok.
  set (x := staked (s_del s) - n). set (y := staked (s_del t) + n).
  set (ds := set_staked (set_lasts (s_del s) ho ac) x).
  set (dd := set_cooldown (set_staked (set_lasts (s_del t) ho2 ac2) y) (N.max (cooldown (s_del s)) (cooldown (s_del t)))).
  set (c2 := set_cfg_last (set_cfg_acc (set_cfg_last (set_cfg_acc c a') l') acc2) last2) in *.
  set (w3 := put_del w2 sk ds). set (w4 := put_del w3 dk dd).
  assert (dat (get w4 ck) = DConfig c2) as C4.
  { unfold w4, w3, put_del. ws. destruct (N.eqb_spec dk ck); [congruence|]. destruct (N.eqb_spec sk ck); [congruence|auto]. }
  assert (dat (get w4 sk) = DSol (set_s_del s ds)) as S4.
  { unfold w4, w3, put_del. ws. destruct (N.eqb_spec dk sk); [congruence|]. rewrite N.eqb_refl, S2. reflexivity. }
  assert (dat (get w4 dk) = DSol (set_s_del t dd)) as D4.
  { unfold w4, w3, put_del. ws. rewrite N.eqb_refl. destruct (N.eqb_spec sk dk); [congruence|]. rewrite D2. reflexivity. }
  pose proof (limits_u64 w sk (s_lamports s) 0 (i_wf _ _ I) (or_intror (ex_intro _ s (conj (proj2 SA) (conj eq_refl eq_refl))))) as B1.
  pose proof (limits_u64 w dk (s_lamports t) 0 (i_wf _ _ I) (or_intror (ex_intro _ t (conj TD (conj eq_refl eq_refl))))) as B2.
  apply over_bind; [|intros w5 R5].
  { eapply over_mono; [|apply (sync_over w4 ck sk (s_lamports s) 0 c2 ds); auto].
    - intros B. right. right. left. right. exists s. split; [exact SA|now rewrite N.max_0_r in B].
    - now rewrite S4.
    - unfold ds, c2. cbn. clear - RM1. lia.
    - unfold ds, c2. cbn. unfold x. clear - RM1 RM2 SB AM ED ES. lia. }
  pose proof (sync_effective_ok _ _ _ _ _ _ R5) as Y5. destruct Y5 as [cc dx lim Hc Hd Hm He Hb Ho Hdat Hlams].
  rewrite C4 in Hc. injection Hc as <-. rewrite S4 in Hd. injection Hd as <-.
  eapply over_mono; [|apply (sync_over w5 ck dk (s_lamports t) 0 (set_cfg_effective c2 (cfg_effective c2 - effective ds + N.min (staked ds) lim)) dd); auto].
  - intros B. right. right. right. left. right. exists t. split; [split; [|exact TD]|now rewrite N.max_0_r in B].
    rewrite <- (go_own _ _ _ _ _ _ _ _ G1). apply TA.
  - now rewrite Hdat, N.eqb_refl.
  - rewrite Hdat. destruct (N.eqb_spec ck dk); [congruence|]. destruct (N.eqb_spec sk dk); [congruence|]. now rewrite D4.
  - unfold dd, ds, c2. cbn. clear - RM1. lia.
  - unfold dd, ds, c2. cbn. unfold x, y. clear - RM1 RM2 SB AM ED ES. lia.
Qed.

(** ** Harvesting for a SOL staker *)
Lemma resync_over e ck w c vk v vauth vhr f : env_ok e -> ready e ck w -> config_at e w ck c ->
  stake_of e w ck vk = Some (v_del v) -> dat (get w vk) = DVal v -> vauth <> ck -> (forall t, f (v_total v) = Ok t -> t < U64) ->
  over (lam (get w ck) < pending e w ck vk \/ f (v_total v) = Err ArithmeticOverflow \/
        exists t, f (v_total v) = Ok t /\ boundless (N.max t (v_min v)))
    (resync_validator e w ck vhr (e_vault e ck) vk vauth f).
Proof.
  intros OK RY C S D NA FB. pose proof (re_wf _ _ _ RY) as WF. pose proof (re_tot _ _ _ RY) as TT.
  assert (vk <> ck) as NV by (intros ->; destruct C; congruence).
  unfold resync_validator. apply over_bind; [|intros w1 W1].
  { eapply over_mono; [|refine (harvest_over e w _ _ _ _ None c _ WF TT C _ S NA ltac:(discriminate))]; [auto|].
    destruct (re_cfg _ _ _ RY) as (c0 & C0 & LE). replace c with c0 by (destruct C, C0; congruence). exact LE. }
  destruct (harvest_then _ _ _ _ _ _ _ _ None _ OK RY C S NA ltac:(discriminate) W1) as (_ & G1 & ac & ho & D1 & a' & l' & C1).
  rewrite D in D1. cbn [upd_del] in D1. rewrite D1. cbn [unpack_val]. rewrite bind_Ok. cbn [v_total set_v_del v_min].
  set (d1 := set_lasts (v_del v) ho ac) in *. set (c1 := set_cfg_last (set_cfg_acc c a') l') in *.
  assert (config_at e w1 ck c1) as CA1 by (split; [rewrite (go_own _ _ _ _ _ _ _ _ G1); apply C|auto]).
  assert (stake_of e w1 ck vk = Some d1) as S1.
  { apply stake_of_some in S as (SO & _ & B). apply stake_of_intro.
    - rewrite (go_own _ _ _ _ _ _ _ _ G1); auto.
    - rewrite D1. reflexivity.
    - rewrite D1. rewrite D in B. exact B. }
  destruct (ready_room _ _ _ _ _ _ (go_ready _ _ _ _ _ _ _ _ G1) CA1 S1) as [RM1 RM2].
  apply over_bind; [intros F; auto|intros t F]. specialize (FB _ F).
  pose proof (wf_dat _ vk WF) as WV. rewrite D in WV. cbn in WV.
  eapply over_mono; [intros B; right; right; exists t; split; [exact F|exact B]|].
  apply sync_over with c1 d1; auto.
  - ws. destruct (N.eqb_spec vk ck); [congruence|exact C1].
  - ws. rewrite N.eqb_refl. reflexivity.
  - lia.
Qed.
Lemma resync_then e ck w c vk v vauth vhr f w' : env_ok e -> ready e ck w -> config_at e w ck c ->
  stake_of e w ck vk = Some (v_del v) -> dat (get w vk) = DVal v -> vauth <> ck -> (forall t, f (v_total v) = Ok t -> t < U64) ->
  resync_validator e w ck vhr (e_vault e ck) vk vauth f = Ok w' ->
  exists t, f (v_total v) = Ok t /\ pending e w ck vk <= lam (get w ck) /\ gone e ck vk vauth None [ck; vk; vauth] w w' /\
    exists d', dat (get w' vk) = DVal (VStake d' t (v_min v)) /\ authority d' = authority (v_del v) /\ vote d' = vote (v_del v).
Proof.
  intros OK RY C S D NA FB H. pose proof H as H0. unfold resync_validator in H.
  destruct (harvest e w ck vhr vauth (e_vault e ck) vk None) as [w1|?|] eqn:W1; [|discriminate..]. rewrite bind_Ok in H.
  destruct (harvest_afforded _ _ _ _ _ _ _ _ _ (re_wf _ _ _ RY) S W1) as (AU & VH & _ & P).
  destruct (harvest_then _ _ _ _ _ _ _ _ None _ OK RY C S NA ltac:(discriminate) W1) as (_ & G1 & ac & ho & D1 & _).
  rewrite D in D1. cbn [upd_del] in D1. rewrite D1 in H. cbn [unpack_val] in H. rewrite bind_Ok in H. cbn [v_total set_v_del v_min] in H.
  destruct (f (v_total v)) as [t|?|] eqn:F; [|discriminate..]. rewrite bind_Ok in H. apply sync_capped in H.
  destruct (resync_goes e ck w c vk v vauth vhr f t OK RY C S D AU NA VH F (FB _ eq_refl) H P) as (w2 & R2 & _ & G & X).
  rewrite H0 in R2. injection R2 as <-. exists t. split; [auto|]. split; [lia|]. auto.
Qed.
Lemma boundless_mono l l' : l <= l' -> boundless l -> boundless l'.
Proof. unfold boundless. intros H B. pose proof (cap_mono l l' H). lia. Qed.
Lemma boundless_big l : 2 ^ 64 <= l -> boundless l.
Proof. unfold boundless, cap. intros H. apply N.le_trans with l; [exact H|]. apply N.div_le_lower_bound; lia. Qed.

Lemma harvest_sol_over e cx a w : env_ok e -> inv e w -> total_lamports w < U64 ->
  (forall vw, c_view cx = Some vw -> vw_effective vw < U64) ->
  over (overflows e cx w (CHarvestSolStakerRewards a)) (harvest_sol_staker_rewards e cx a w).
Proof.
  intros OK I TT VB. cbn [overflows]. set (Q := In _ _ \/ _).
  destruct (N.eq_dec (hs_authority a) (hs_config a)) as [E|NAU]; [intros _; left; left; exact E|].
  destruct (N.eq_dec (hs_prev_auth a) (hs_config a)) as [E|NPA]; [intros _; left; right; left; exact E|].
  destruct (N.eq_dec (hs_cur_auth a) (hs_config a)) as [E|NCA]; [intros _; left; right; right; left; exact E|].
  destruct (option_eq_dec (hs_keeper a) (Some (hs_config a))) as [E|NKP]; [intros _; right; left; exact E|].
  unfold harvest_sol_staker_rewards. apply over_bind; [calm|intros c C]. apply load_config_at in C.
  apply over_bind; [calm|intros s SL]. pose proof (proj2 (proj2 (load_sol_ok _ _ _ _ _ SL))) as SK. apply load_sol_at in SL as [[SO SD] S].
  do 2 (apply over_bind; [calm|intros ? _]). cbv zeta. do 2 (apply over_bind; [calm|intros ? _]).
  destruct (c_view cx) as [vw|] eqn:CV; [rewrite bind_Ok|intros [=]]. specialize (VB _ eq_refl).
  set (rs := negb (vw_effective vw =? s_lamports s) || negb (vw_vote vw =? vote (s_del s))).
  apply over_bind; [destruct rs, (hs_keeper a); intros [=]|intros kpr KP].
  assert (kpr <> Some (hs_config a)) as NK.
  { destruct rs, (hs_keeper a); try discriminate KP; injection KP as <-; congruence. } clear KP NKP.
  assert (forall xs, List.NoDup xs -> incl xs [hs_stake a; hs_prev a; hs_cur a] ->
    lam (get w (hs_config a)) < sum_over (pending e w (hs_config a)) xs -> Q) as SH.
  { intros xs ND IN L. right. right. left. eapply short_of; eauto. }
  apply over_bind; [|intros w1 W1].
  { eapply over_mono; [|exact (harvest_over e w _ _ _ _ kpr c _ (i_wf _ _ I) TT C (proj1 (i_lamp _ _ I _ _ C)) S NAU NK)].
    intros L. apply (SH [hs_stake a]); [repeat constructor; auto|intros x; simpl; tauto|simpl; lia]. }
  destruct rs eqn:RS; cbn [negb]; [|calm].
  destruct (harvest_afforded _ _ _ _ _ _ _ _ _ (i_wf _ _ I) S W1) as (_ & _ & (h & HH) & _).
  pose proof (ready_inv _ _ _ _ _ I C HH TT) as RY.
  destruct (harvest_then _ _ _ _ _ _ _ _ kpr _ OK RY C S NAU NK W1) as (_ & G1 & ac & ho & D1 & a' & l' & C1).
  rewrite SD in D1. cbn [upd_del] in D1. rewrite D1. cbn [unpack_sol]. rewrite bind_Ok.
  remember (hs_config a) as ck eqn:CK. remember (hs_stake a) as sk eqn:SKE.
  assert (sk <> ck) as NSC by (intros ->; destruct C; congruence).
  assert (forall v, e_val e v ck <> sk) as NVS by (intros v E; rewrite SK in E; now apply (ok_val_sol e OK) in E).
  set (s1 := set_s_del s (set_lasts (s_del s) ho ac)) in *.
  set (c1 := set_cfg_last (set_cfg_acc c a') l') in *.
  assert (config_at e w1 ck c1) as CA1 by (split; [rewrite (go_own _ _ _ _ _ _ _ _ G1); apply C|auto]).
  pose proof (go_ready _ _ _ _ _ _ _ _ G1) as RY1. pose proof (go_paid _ _ _ _ _ _ _ _ G1) as PD1.
  pose proof (go_coll _ _ _ _ _ _ _ _ G1) as CO1.
  assert (forall vt, own (get w (e_val e vt ck)) = e_prog e -> exists v, dat (get w (e_val e vt ck)) = DVal v /\
     vote (v_del v) = vt /\ val_at e w (e_val e vt ck) v /\ stake_of e w ck (e_val e vt ck) = Some (v_del v) /\
     e_val e vt ck <> ck) as VAL.
  { intros vt O. destruct (val_here _ _ _ _ OK (i_sane _ _ I) O) as (v & Dv & Vv & Sv). exists v.
    repeat split; auto. intros E. rewrite E in Dv. destruct C; congruence. }
  (* leaving *)
  apply over_bind with (P := Q); [|intros w2 W2].
  { unfold leave_previous. cbn [s1 s_del set_s_del vote set_lasts s_lamports]. rewrite <- CK.
    destruct (N.eqb_spec (vote (s_del s)) 0) as [V0|V0]; cbn [negb]; [apply over_bind; [calm|intros ? _; calm]|].
    apply over_bind; [calm|intros ? _]. apply over_bind; [calm|intros ? PE]. apply require_ok in PE. b2p PE.
    destruct (limits_total _ _ _ _ _ I OK (conj SO SD) SK V0) as (v & [Ov Dv] & Vv & LE).
    destruct (VAL _ Ov) as (v0 & Dv0 & _ & VA & Sv & NVC). rewrite Dv in Dv0. injection Dv0 as <-.
    apply over_bind; [calm|intros ? _]. pose proof (wf_dat _ (e_val e (vote (s_del s)) ck) (i_wf _ _ I)) as WV. rewrite Dv in WV. cbn in WV.
    eapply over_mono; [|apply (resync_over e ck w1 c1 (hs_prev a) v (hs_prev_auth a) (hs_vhr a) (fun t => csub t (s_lamports s)) OK RY1 CA1)]; auto.
    - intros [L|[F|(t & F & B)]].
      + rewrite PE in L. rewrite (collected_pending _ _ _ _ _ _ CO1) in L by auto.
        apply (SH [sk; hs_prev a]); [|intros x; simpl; tauto|rewrite PE; simpl; lia].
        constructor; [rewrite PE; simpl; intros [E|[]]; now apply (NVS (vote (s_del s)))|repeat constructor; auto].
      + rewrite csub_le in F by auto. discriminate.
      + rewrite csub_le in F by auto. injection F as <-. right. right. right. left. exists s. split; [split; auto|].
        exists v. rewrite PE. split; [exact VA|exact B].
    - rewrite PE, (co_oth _ _ _ _ _ CO1); auto.
    - rewrite PE, (go_dat _ _ _ _ _ _ _ _ G1); auto.
    - intros t F. rewrite csub_le in F by auto. injection F as <-. lia. }
  assert (ready e ck w2 /\ (forall k, own (get w2 k) = own (get w k)) /\ dat (get w2 sk) = DSol s1 /\
     (forall v, dat (get w (e_val e (vw_vote vw) ck)) = DVal v -> e_val e (vw_vote vw) ck = hs_cur a ->
        own (get w (e_val e (vw_vote vw) ck)) = e_prog e ->
        exists v', dat (get w2 (e_val e (vw_vote vw) ck)) = DVal v' /\ vote (v_del v') = vote (v_del v) /\
          v_min v' = v_min v /\ v_total v' <= v_total v /\
          (lam (get w2 ck) < pending e w2 ck (e_val e (vw_vote vw) ck) -> Q))) as (RY2 & OW2 & D2 & V2).
  { unfold leave_previous in W2. cbn [s1 s_del set_s_del vote set_lasts s_lamports] in W2. rewrite <- CK in W2.
    destruct (N.eqb_spec (vote (s_del s)) 0) as [V0|V0]; cbn [negb] in W2.
    - destruct (assert _) as [?|?|]; [|discriminate..]. rewrite bind_Ok in W2. injection W2 as <-.
      split; [auto|]. split; [apply (go_own _ _ _ _ _ _ _ _ G1)|]. split; [auto|].
      intros v Dv CE Ov. exists v. rewrite (go_dat _ _ _ _ _ _ _ _ G1); auto.
      2:{ intros E. rewrite E in Dv. destruct C; congruence. }
      split; [auto|]. split; [auto|]. split; [auto|]. split; [lia|].
      rewrite (collected_pending _ _ _ _ _ _ CO1) by auto. intros L.
      apply (SH [sk; hs_cur a]); [|intros x; simpl; tauto|rewrite <- CE; simpl; lia].
      constructor; [rewrite <- CE; simpl; intros [E|[]]; now apply (NVS (vw_vote vw))|repeat constructor; auto].
    - destruct (require (own _ =? _) _) as [?|?|]; [|discriminate..]. rewrite bind_Ok in W2.
      destruct (require (_ =? _) _) as [?|?|] eqn:PE; [|discriminate..]. rewrite bind_Ok in W2. apply require_ok in PE. b2p PE.
      destruct (unpack_val _) as [?|?|]; [|discriminate..]. rewrite bind_Ok in W2.
      destruct (limits_total _ _ _ _ _ I OK (conj SO SD) SK V0) as (v & [Ov Dv] & Vv & LE).
      destruct (VAL _ Ov) as (v0 & Dv0 & _ & VA & Sv & NVC). rewrite Dv in Dv0. injection Dv0 as <-.
      pose proof (wf_dat _ (e_val e (vote (s_del s)) ck) (i_wf _ _ I)) as WV. rewrite Dv in WV. cbn in WV.
      rewrite PE in W2.
      destruct (resync_then e ck w1 c1 (e_val e (vote (s_del s)) ck) v (hs_prev_auth a) (hs_vhr a) (fun t => csub t (s_lamports s)) w2 OK RY1 CA1 ltac:(rewrite (co_oth _ _ _ _ _ CO1); auto)
        ltac:(rewrite (go_dat _ _ _ _ _ _ _ _ G1); auto) NPA ltac:(intros t F; cbv beta in F; rewrite csub_le in F by auto; injection F as <-; lia) W2)
        as (t & F & _ & G2 & d' & D2 & A2 & E2).
      cbv beta in F. rewrite csub_le in F by auto. injection F as <-.
      split; [apply (go_ready _ _ _ _ _ _ _ _ G2)|]. split; [|split].
      + intros k. rewrite (go_own _ _ _ _ _ _ _ _ G2). apply (go_own _ _ _ _ _ _ _ _ G1).
      + rewrite (go_dat _ _ _ _ _ _ _ _ G2); auto.
      + intros v' Dv' CE Ov'. pose proof (go_paid _ _ _ _ _ _ _ _ G2) as PD2.
        destruct (N.eq_dec (vw_vote vw) (vote (s_del s))) as [VE|NV].
        * rewrite VE in *. rewrite Dv in Dv'. injection Dv' as <-. eexists. split; [exact D2|]. cbn.
          split; [auto|]. split; [auto|]. split; [lia|].
          rewrite (collected_zero _ _ _ _ _ (go_coll _ _ _ _ _ _ _ _ G2)). lia.
        * assert (e_val e (vw_vote vw) ck <> e_val e (vote (s_del s)) ck) as NEV.
          { intros E. apply (ok_val_inj e OK) in E. now destruct E. }
          assert (e_val e (vw_vote vw) ck <> ck) as NVC'. { intros E. rewrite E in Dv'. destruct C; congruence. }
          exists v'. rewrite (go_dat _ _ _ _ _ _ _ _ G2), (go_dat _ _ _ _ _ _ _ _ G1) by auto.
          split; [auto|]. split; [auto|]. split; [auto|]. split; [lia|].
          rewrite (collected_pending _ _ _ _ _ _ (go_coll _ _ _ _ _ _ _ _ G2)) by auto.
          rewrite (collected_pending _ _ _ _ _ _ CO1) by auto. rewrite (collected_pending _ _ _ _ _ _ CO1) in PD2 by auto. intros L.
          apply (SH [sk; hs_prev a; hs_cur a]); [|intros x; simpl; tauto|rewrite <- CE, PE; simpl; lia].
          rewrite <- CE, PE. repeat constructor; simpl; auto; intros [E|E]; try destruct E as [E|[]]; try congruence; eapply NVS; eauto. }
  destruct (ready_config _ _ _ RY2) as [c2 CA2].
  assert (forall v' v, dat (get w2 (e_val e (vw_vote vw) ck)) = DVal v' -> own (get w (e_val e (vw_vote vw) ck)) = e_prog e ->
    vote (v_del v') = vote (v_del v) -> vote (v_del v) = vw_vote vw ->
    stake_of e w2 ck (e_val e (vw_vote vw) ck) = Some (v_del v')) as S2.
  { intros v' v Dv' O E1 E2. apply stake_of_intro; [rewrite OW2; auto|rewrite Dv'; reflexivity|]. rewrite Dv'. simpl. now rewrite E1, E2. }
  (* joining *)
  apply over_bind with (P := Q); [|intros [[w3 cv] cs] W3].
  { unfold join_current. rewrite <- CK. destruct (vw_vote vw =? 0) eqn:NZ; cbn [negb]; [calm|].
    apply over_bind; [calm|intros ? CE]. apply require_ok in CE. b2p CE. rewrite OW2.
    destruct (N.eqb_spec (own (get w (hs_cur a))) (e_prog e)) as [O|O]; [|calm].
    apply over_bind; [calm|intros ? _]. rewrite CE in O. destruct (VAL _ O) as (v & Dv & Vv & VA & Sv & NVC).
    destruct (V2 _ Dv ltac:(auto) O) as (v' & Dv' & VV' & M' & T' & P').
    apply over_bind; [|intros ? _; calm].
    eapply over_mono; [|apply (resync_over e ck w2 c2 (hs_cur a) v' (hs_cur_auth a) (hs_vhr a) (fun t => add64 t (vw_effective vw)) OK RY2 CA2)]; auto.
    - intros [L|B]; [rewrite CE in L; auto|]. right. right. right. right. exists vw. split; [reflexivity|]. right. exists v. rewrite CE.
      split; [exact VA|]. destruct B as [F|(t & F & B)].
      + apply boundless_big. destruct (N.lt_ge_cases (v_total v' + vw_effective vw) U64) as [LT|GE].
        * rewrite add64_lt in F by auto. discriminate.
        * change (2 ^ 64) with U64. lia.
      + apply add64_ok in F as [-> _]. eapply boundless_mono; [|exact B]. rewrite M'. lia.
    - rewrite CE. eauto.
    - rewrite CE. auto.
    - intros t F. apply add64_ok in F as [-> F]; exact F. }
  assert (ready e ck w3 /\ (forall k, own (get w3 k) = own (get w k)) /\ dat (get w3 sk) = DSol s1 /\ cs <= vw_effective vw) as (RY3 & OW3 & D3 & CSL).
  { unfold join_current in W3. rewrite <- CK in W3. destruct (vw_vote vw =? 0) eqn:NZ; cbn [negb] in W3.
    { injection W3 as <- <- <-. auto 6 using N.le_refl. }
    destruct (require (_ =? _) _) as [?|?|] eqn:CE; [|discriminate..]. rewrite bind_Ok in W3. apply require_ok in CE. b2p CE.
    rewrite OW2 in W3. destruct (N.eqb_spec (own (get w (hs_cur a))) (e_prog e)) as [O|O].
    2:{ injection W3 as <- <- <-. split; [auto|]. split; [auto|]. split; [auto|]. apply N.le_0_l. }
    destruct (unpack_val _) as [?|?|]; [|discriminate..]. rewrite bind_Ok in W3.
    rewrite CE in O, W3. destruct (VAL _ O) as (v & Dv & Vv & VA & Sv & NVC).
    destruct (V2 _ Dv ltac:(auto) O) as (v' & Dv' & VV' & M' & T' & P').
    destruct (resync_validator _ _ _ _ _ _ _ _) as [wx|?|] eqn:RX; [|discriminate..]. rewrite bind_Ok in W3. injection W3 as <- <- <-.
    destruct (resync_then e ck w2 c2 (e_val e (vw_vote vw) ck) v' (hs_cur_auth a) (hs_vhr a) (fun t => add64 t (vw_effective vw)) wx OK RY2 CA2 ltac:(eauto) Dv' NCA ltac:(intros t F; apply add64_ok in F as [-> F]; exact F) RX)
        as (t & F & _ & G3 & _).
    split; [apply (go_ready _ _ _ _ _ _ _ _ G3)|]. split; [|split; [|lia]].
    - intros k. rewrite (go_own _ _ _ _ _ _ _ _ G3). auto.
    - rewrite (go_dat _ _ _ _ _ _ _ _ G3); auto. }
  rewrite D3. cbn [unpack_sol]. rewrite bind_Ok.
  destruct (ready_config _ _ _ RY3) as [c3 CA3]. intros F.
  right. right. right. right. exists vw. split; [reflexivity|]. left.
  destruct (N.lt_ge_cases (cap cs) U64) as [LT|GE]; [exfalso|apply boundless_mono with cs; [exact CSL|exact GE]].
  destruct (final_goes e ck w3 c3 sk s1 cv cs OK RY3 CA3) as (w4 & R4 & _); auto.
  { apply stake_of_intro; [rewrite OW3; auto|rewrite D3; reflexivity|]. rewrite D3. simpl. now rewrite <- SK. }
  { lia. }
  congruence.
Qed.
