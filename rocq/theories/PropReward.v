(** Rewards: what harvests pay, to whom, and what they leave alone. *)
From Verif Require Import Base Types Layout Instr Math External Processor Runtime History Spec SpecReward
  WorldLemmas Effects Handlers Evolve Sane Wf Totals Arith Nets Caps Stakers Deposits Inv Life Tokens Gov Flow
  Rewards Collect Pays Progress Demo PropState PropTokens PropAuth.

(** An instruction that does not synchronise a config leaves its accumulator,
    balance and effective total alone. *)
Lemma run_quiet e cx c w w' cf : env_ok e -> sane e w -> run e cx c w = Ok w' -> syncs c = false ->
  config_at e w (call_config c) cf -> exists cf', config_at e w' (call_config c) cf' /\
    cfg_acc cf' = cfg_acc cf /\ cfg_last cf' = cfg_last cf /\ cfg_effective cf' = cfg_effective cf /\
    lam (get w' (call_config c)) = lam (get w (call_config c)).
Proof.
  intros OK S RUN Q [CO CD]. apply run_ok in RUN as (_ & D & _). destruct D; try discriminate; cbn [call_config] in *.
  - destruct (config_created_facts _ _ _ _ _ _ _ _ _ _ _ OK S H) as (bs & R & _). congruence.
  - destruct H. exists cf. split; [|auto]. split; [rewrite Ho; destruct (_ =? _); auto|].
    rewrite Hd. destruct (N.eqb_spec (iv_stake a) (iv_config a)) as [E|]; auto. rewrite E in Hsd. congruence.
  - destruct H. subst w'. rewrite CD in Hc. injection Hc as <-. eexists. split; [split; ws; [auto|rewrite N.eqb_refl; reflexivity]|].
    ws. destruct t; auto.
  - destruct H. subst w'. rewrite CD in Hc. injection Hc as <-. eexists. split; [split; ws; [auto|rewrite N.eqb_refl; reflexivity]|].
    ws. destruct f; auto.
  - destruct H. exists cf. split; [|auto]. split; [rewrite Ho; destruct (_ =? _); auto|].
    rewrite Hd. destruct (N.eqb_spec (is_val a) (is_config a)) as [E|]; [rewrite E in Hv; congruence|].
    destruct (N.eqb_spec (is_stake a) (is_config a)) as [E|]; auto. rewrite E in Hsd. congruence.
  - destruct H. subst w'. exists cf. split; [|ws; auto]. split; ws; auto.
    destruct (N.eqb_spec (sy_stake a) (sy_config a)) as [E|]; auto. rewrite E in Hv. congruence.
Qed.
(** The up-to-date accumulator of a config is the same before and after any
    instruction on it (unless the keeper to be paid is the config itself). *)
Lemma run_acc_at e cx c w w' cf : env_ok e -> reachable e w -> run e cx c w = Ok w' ->
  keeper_in c <> Some (call_config c) -> config_at e w (call_config c) cf ->
  acc_at w' (call_config c) = acc_at w (call_config c).
Proof.
  intros OK R RUN NK C. pose proof (inv_reachable _ _ OK R) as []. destruct (syncs c) eqn:Y.
  - destruct (run_settles _ _ _ _ _ OK i_sane i_wf RUN Y NK) as (c0 & c' & [_ C0] & [_ C'] & A & L).
    rewrite (acc_at_eq _ _ _ C0), (acc_at_eq _ _ _ C').
    assert (cfg_acc c0 < U128) by (eapply acc_wf; eauto).
    rewrite acc_now_seen; [auto|rewrite A; now apply acc_now_lt|lia].
  - destruct (run_quiet _ _ _ _ _ _ OK i_sane RUN Y C) as (c' & [_ C'] & A & L & E & M). destruct C as [_ C].
    rewrite (acc_at_eq _ _ _ C), (acc_at_eq _ _ _ C'). unfold acc_now. now rewrite A, L, E, M.
Qed.
Lemma reach_acc_ok e w ck : env_ok e -> reachable e w -> acc_ok ck w.
Proof. intros OK R. apply acc_wf. apply (i_wf _ _ (inv_reachable _ _ OK R)). Qed.

(** ** C24: a harvest pays exactly the pending reward *)
Theorem C24_validator_harvest_pays e cx a w w' : env_ok e -> reachable e w ->
  run e cx (CHarvestValidatorRewards a) w = Ok w' ->
  exists d, stake_of e w (hv_config a) (hv_stake a) = Some d /\ forall k,
    lam (get w' k) + (if k =? hv_config a then pending e w (hv_config a) (hv_stake a) else 0) =
    lam (get w k) + (if k =? authority d then pending e w (hv_config a) (hv_stake a) else 0).
Proof.
  intros OK R RUN. apply run_ok in RUN as (_ & D & T & _). inversion D; subst. destruct H0.
  assert (stake_of e w (hv_config a) (hv_stake a) = Some (v_del v)) as SS.
  { apply stake_of_intro; auto; rewrite Hv; auto. }
  destruct (harvest_collects _ _ _ _ _ _ _ _ H) as (_ & c & _ & P); auto; try discriminate.
  { rewrite Hv. exact Hk. } { eapply reach_acc_ok; eauto. }
  exists (v_del v). split; [auto|]. intros k. specialize (P k). cbn [keeper_part] in P.
  rewrite N.sub_0_r, N.add_0_r in P. rewrite P.
  destruct H. rewrite Hv in Hd. injection Hd as <-. now rewrite Ha.
Qed.
Print Assumptions C24_validator_harvest_pays.
(* Validator 1 is paid 277777 staking lamports and 2500 holder lamports. *)
Example C24_validator_case : let l := firstn 9 story in let l' := firstn 10 story in
  reachable denv (at_end l) /\ runs l' = true /\ nth 9 story (Pay 0 0 0) = harvest_val vote1 alice /\
  pending denv (at_end l) kcfg kval1 = 280277 /\
  authority (v_del (val_of (at_end l) kval1)) = alice /\
  lam (get (at_end l') alice) = lam (get (at_end l) alice) + 280277 /\
  lam (get (at_end l') kcfg) + 280277 = lam (get (at_end l) kcfg).
Proof. split; [apply at_end_reachable; vm_compute; reflexivity|]. vm_compute. auto 10. Qed.
Theorem C24_staker_harvest_pays e cx a w w' vw : env_ok e -> reachable e w ->
  run e cx (CHarvestSolStakerRewards a) w = Ok w' -> c_view cx = Some vw ->
  exists s, sol_at e w (hs_stake a) s /\
    (vw_effective vw = s_lamports s -> vw_vote vw = vote (s_del s) -> forall k,
       lam (get w' k) + (if k =? hs_config a then pending e w (hs_config a) (hs_stake a) else 0) =
       lam (get w k) + (if k =? authority (s_del s) then pending e w (hs_config a) (hs_stake a) else 0)).
Proof.
  intros OK R RUN V. apply run_ok in RUN as (_ & D & T & _). inversion D; subst.
  destruct (harvest_sol_collects _ _ _ _ _ OK (i_sane _ _ (inv_reachable _ _ OK R)) (reach_acc_ok _ _ _ OK R) H0 T)
    as (s & vw' & SA & _ & V' & _ & C). rewrite V in V'. injection V' as <-. exists s. split; [auto|].
  intros E1 E2. destruct C as [(_ & _ & P)|([N1|N1] & _)]; [|contradiction|contradiction].
  intros k. rewrite (P k), N.add_0_r, N.sub_0_r. reflexivity.
Qed.
Print Assumptions C24_staker_harvest_pays.
Example C24_staker_case : let l := firstn 7 story in let l' := firstn 8 story in
  reachable denv (at_end l) /\ runs l' = true /\
  nth 7 story (Pay 0 0 0) = harvest_sol nat1 bob vote1 alice vote1 alice None (View vote1 bob 1000) /\
  s_lamports (sol_of (at_end l) ksol1) = 1000 /\ vote (s_del (sol_of (at_end l) ksol1)) = vote1 /\
  pending denv (at_end l) kcfg ksol1 = 722222 /\
  lam (get (at_end l') bob) = lam (get (at_end l) bob) + 722222.
Proof. split; [apply at_end_reachable; vm_compute; reflexivity|]. vm_compute. auto 10. Qed.
(** With a synchronisation: the validators left and joined are paid as well, and
    the keeper gets its share of the staker's reward. *)
Theorem C24_sync_harvest_pays e cx a w w' vw kp : env_ok e -> reachable e w ->
  run e cx (CHarvestSolStakerRewards a) w = Ok w' -> c_view cx = Some vw ->
  hs_keeper a = Some kp -> kp <> hs_config a ->
  exists s c, sol_at e w (hs_stake a) s /\ config_at e w (hs_config a) c /\
    (vw_effective vw <> s_lamports s \/ vw_vote vw <> vote (s_del s) ->
     exists ks, NoDup ks /\
       (forall x, In x ks <-> settles_with e w (hs_config a) (hs_stake a) (vote (s_del s)) (vw_vote vw) x) /\
       forall k,
         let fee := N.min (pending e w (hs_config a) (hs_stake a)) (cfg_sync c) in
         lam (get w' k) + (if k =? hs_config a then sum_over (pending e w (hs_config a)) ks else 0) +
           (if k =? authority (s_del s) then fee else 0) =
         lam (get w k) + (if k =? kp then fee else 0) + sum_over (share e w (hs_config a) k) ks).
Proof.
  intros OK R RUN V K NK. apply run_ok in RUN as (_ & D & T & _). inversion D; subst.
  assert (exists c, config_at e w (hs_config a) c) as [c C0] by (destruct H0; exists c0; split; auto).
  destruct (harvest_sol_collects _ _ _ _ _ OK (i_sane _ _ (inv_reachable _ _ OK R)) (reach_acc_ok _ _ _ OK R) H0 T)
    as (s & vw' & SA & SS & V' & _ & C). rewrite V in V'. injection V' as <-. exists s, c. split; [auto|]. split; [auto|].
  intros DF. destruct C as [([E1 E2] & _)|(_ & kp' & K' & F)]; [tauto|].
  rewrite K in K'. injection K' as <-. destruct (F NK) as [_ _ (ks & c' & ND & IK & C' & _ & _ & P)].
  assert (c' = c) as -> by (destruct C0, C'; congruence).
  exists ks. split; [auto|]. split; [auto|]. intros k. apply P. auto.
Qed.
Print Assumptions C24_sync_harvest_pays.
(* Here the SOL stake has moved to validator 2; the pending reward is 10000, of which the keeper gets 100.
   Without the harvest of validator 1 just before, that one would be settled too. *)
Example C24_sync_case : let l := firstn 10 story in let l' := firstn 11 story in
  let s := harvest_sol nat1 bob vote1 alice vote2 dave (Some carol) (View vote2 bob 700) in
  let m := firstn 9 story in
  reachable denv (at_end l) /\ runs l' = true /\ nth 10 story (Pay 0 0 0) = s /\
  pending denv (at_end l) kcfg ksol1 = 10000 /\ cfg_sync (cfg_of (at_end l) kcfg) = 100 /\
  lam (get (at_end l') carol) = lam (get (at_end l) carol) + 100 /\
  lam (get (at_end l') bob) = lam (get (at_end l) bob) + 9900 /\
  runs (m ++ [s]) = true /\ lam (get (at_end (m ++ [s])) alice) = lam (get (at_end m) alice) + 280277.
Proof. split; [apply at_end_reachable; vm_compute; reflexivity|]. vm_compute. auto 10. Qed.

(** ** C21: a harvest leaves everybody else's claim alone *)
Theorem C21_validator_harvest_leaves_others e cx a w w' k : env_ok e -> reachable e w ->
  run e cx (CHarvestValidatorRewards a) w = Ok w' -> k <> hv_stake a ->
  stake_of e w' (hv_config a) k = stake_of e w (hv_config a) k /\
  pending e w' (hv_config a) k = pending e w (hv_config a) k.
Proof.
  intros OK R RUN NE. apply run_ok in RUN as (_ & D & T & _). inversion D; subst. destruct H0.
  destruct (harvest_collects _ _ _ _ _ _ _ _ H) as (C & _); auto; try discriminate.
  { rewrite Hv. exact Hk. } { eapply reach_acc_ok; eauto. }
  split; [apply (co_oth _ _ _ _ _ C); auto|eapply collected_pending; eauto].
Qed.
Print Assumptions C21_validator_harvest_leaves_others.
Example C21_validator_case : let l := firstn 9 story in let l' := firstn 10 story in
  reachable denv (at_end l) /\ runs l' = true /\ ksol1 <> kval1 /\
  pending denv (at_end l) kcfg kval1 = 280277 /\
  pending denv (at_end l) kcfg ksol1 = 10000 /\ pending denv (at_end l') kcfg ksol1 = 10000.
Proof.
  split; [apply at_end_reachable; vm_compute; reflexivity|]. split; [vm_compute; reflexivity|].
  split; [discriminate|]. vm_compute. auto.
Qed.
Theorem C21_staker_harvest_leaves_others e cx a w w' vw k : env_ok e -> reachable e w ->
  run e cx (CHarvestSolStakerRewards a) w = Ok w' -> c_view cx = Some vw ->
  hs_keeper a <> Some (hs_config a) ->
  exists s, sol_at e w (hs_stake a) s /\
    (k <> hs_stake a ->
     vw_effective vw = s_lamports s /\ vw_vote vw = vote (s_del s) \/
     ~ settles_with e w (hs_config a) (hs_stake a) (vote (s_del s)) (vw_vote vw) k ->
     stake_of e w' (hs_config a) k = stake_of e w (hs_config a) k /\
     pending e w' (hs_config a) k = pending e w (hs_config a) k).
Proof.
  intros OK R RUN V NK. apply run_ok in RUN as (_ & D & T & _). inversion D; subst.
  destruct (harvest_sol_collects _ _ _ _ _ OK (i_sane _ _ (inv_reachable _ _ OK R)) (reach_acc_ok _ _ _ OK R) H0 T)
    as (s & vw' & SA & SS & V' & _ & C). rewrite V in V'. injection V' as <-. exists s. split; [auto|].
  intros NE Q. destruct C as [(_ & C & _)|(DF & kp & K & F)].
  - split; [apply (co_oth _ _ _ _ _ C); auto|eapply collected_pending; eauto].
  - destruct Q as [[Q1 Q2]|Q]; [tauto|]. rewrite K in NK. destruct F as [SA1 SA2 (ks & c & _ & IK & [_ C] & ST & OT & _)]; [congruence|].
    rewrite <- IK in Q. assert (stake_of e w' (hs_config a) k = stake_of e w (hs_config a) k) as E by auto.
    split; [auto|]. destruct (ST (hs_stake a)) as (c' & _ & C' & _); [apply IK; left; auto|].
    rewrite (pending_eq _ _ _ _ _ C), (pending_eq _ _ _ _ _ C'). now rewrite SA1, SA2, E.
Qed.
Print Assumptions C21_staker_harvest_leaves_others.
Example C21_staker_case : let l := firstn 7 story in let l' := firstn 8 story in
  reachable denv (at_end l) /\ runs l' = true /\ ksol1 <> kval1 /\
  pending denv (at_end l) kcfg kval1 = 277777 /\ pending denv (at_end l') kcfg kval1 = 277777 /\
  (* a synchronising harvest leaves the validators it does not involve *)
  ~ settles_with denv (at_end l) kcfg ksol1 vote1 0 kval2.
Proof.
  split; [apply at_end_reachable; vm_compute; reflexivity|]. split; [vm_compute; reflexivity|].
  split; [discriminate|]. split; [vm_compute; reflexivity|]. split; [vm_compute; reflexivity|].
  intros [E|[[_ E]|[E _]]]; [discriminate E|discriminate E|apply E; reflexivity].
Qed.
(** In fact no instruction on a config changes the staking claim of an account it
    does not touch. *)
Theorem C21_staking_claims_kept e cx c w w' cf cf' d : env_ok e -> reachable e w -> run e cx c w = Ok w' ->
  keeper_in c <> Some (call_config c) ->
  config_at e w (call_config c) cf -> config_at e w' (call_config c) cf' ->
  stake_claim w' (call_config c) cf' d = stake_claim w (call_config c) cf d.
Proof.
  intros OK R RUN NK C C'. pose proof (run_acc_at _ _ _ _ _ _ OK R RUN NK C) as E. destruct C as [_ C], C' as [_ C'].
  rewrite (acc_at_eq _ _ _ C), (acc_at_eq _ _ _ C') in E. unfold stake_claim. now rewrite E.
Qed.
Print Assumptions C21_staking_claims_kept.
(* A slash of the SOL staker leaves the validator's staking claim. *)
Example C21_claims_case : let l := firstn 7 story ++ [donate 60] in let l' := l ++ [slash_sol nat1 bob 50] in
  reachable denv (at_end l) /\ runs l' = true /\
  stake_claim (at_end l) kcfg (cfg_of (at_end l) kcfg) (v_del (val_of (at_end l) kval1)) = 277777 /\
  stake_claim (at_end l') kcfg (cfg_of (at_end l') kcfg) (v_del (val_of (at_end l) kval1)) = 277777 /\
  cfg_acc (cfg_of (at_end l) kcfg) <> cfg_acc (cfg_of (at_end l') kcfg).
Proof.
  split; [apply at_end_reachable; vm_compute; reflexivity|]. split; [vm_compute; reflexivity|].
  split; [vm_compute; reflexivity|]. split; [vm_compute; reflexivity|]. vm_compute. discriminate.
Qed.

(** ** C20: harvesting twice pays once *)
Lemma twice_noop e w1 ck sk vhr c d h : env_ok e -> inv e w1 -> settled e ck sk w1 ->
  config_at e w1 ck c -> cfg_last c = lam (get w1 ck) -> del_of (dat (get w1 sk)) = Ok d ->
  vhr = e_holder e (e_vault e ck) -> dat (get w1 vhr) = DHolder h ->
  exists w', harvest e w1 ck vhr (authority d) (e_vault e ck) sk None = Ok w' /\ forall k, get w' k = get w1 k.
Proof.
  intros OK [] S C L D V H. eapply harvest_settled; eauto. now destruct (i_lamp _ _ C).
Qed.
Theorem C20_validator_harvest_twice e cx cx2 a w w' : env_ok e -> reachable e w -> wf_ctx e cx ->
  run e cx (CHarvestValidatorRewards a) w = Ok w' ->
  exists w2, run e cx2 (CHarvestValidatorRewards a) w' = Ok w2 /\ forall k, get w2 k = get w' k.
Proof.
  intros OK R WC RUN. assert (inv e w') as I.
  { eapply inv_step; [eauto|apply inv_reachable; eauto|]. eapply step_do; eauto. exact Logic.I. }
  pose proof RUN as RUN'. apply run_ok in RUN as (HN & D & T & _). inversion D; subst. destruct H0.
  destruct (harvest_collects _ _ _ _ _ _ _ _ H) as (C & _); auto; try discriminate.
  { rewrite Hv. exact Hk. } { eapply reach_acc_ok; eauto. }
  pose proof (settles_harvest _ _ _ _ _ _ _ _ _ H ltac:(discriminate)) as ST.
  pose proof (last_settles _ _ _ ST (reach_acc_ok _ _ _ OK R) T) as L.
  destruct (co_cfg _ _ _ _ _ C) as (c & c' & D0 & D1 & _).
  destruct (harvested_net _ _ _ _ _ _ _ _ _ H) as (? & d & h & rpt & sr & hr & RD & AU & VH & O1 & _ & _ & S1 & _).
  pose proof (rd_d _ _ _ _ _ _ _ _ _ _ _ RD) as Dd. rewrite Hv in Dd. injection Dd as <-.
  rewrite Hv in S1. cbn in S1. set (d1 := settle_del x rpt h (v_del v)) in *.
  assert (dat (get w' (hv_vhr a)) = DHolder h) as HH.
  { apply (hframe_harvest _ _ _ _ _ _ _ _ _ H). rewrite VH. apply (rd_h _ _ _ _ _ _ _ _ _ _ _ RD). }
  destruct (twice_noop e w' (hv_config a) (hv_stake a) (hv_vhr a) c' d1 h) as (w2 & H2 & SM); auto.
  { eapply collected_settled; eauto. } { split; [rewrite O1; auto|auto]. } { rewrite S1. reflexivity. }
  exists w2. split; [|auto]. unfold run. cbn [handler]. unfold harvest_validator_rewards, load_config, load_val.
  rewrite !O1, Hco, Hso, D1, S1, !N.eqb_refl. cbn [require]. rewrite !bind_Ok. cbn [unpack_config unpack_val]. rewrite !bind_Ok.
  cbn [v_del set_v_del]. rewrite require_true by (apply N.eqb_eq; exact Hk). rewrite bind_Ok.
  cbn [v_del]. rewrite require_true by (apply N.eqb_eq; exact AU). cbv zeta. rewrite require_true by (apply N.eqb_eq; exact VH).
  change (authority d1) with (authority (v_del v)) in H2. rewrite <- AU in H2.
  rewrite H2, bind_Ok, runtime_check_same; auto.
Qed.
Print Assumptions C20_validator_harvest_twice.
Example C20_validator_case : let l := firstn 9 story in
  reachable denv (at_end l) /\ runs (l ++ [harvest_val vote1 alice; harvest_val vote1 alice]) = true /\
  lam (get (at_end (l ++ [harvest_val vote1 alice])) alice) = lam (get (at_end l) alice) + 280277 /\
  lam (get (at_end (l ++ [harvest_val vote1 alice; harvest_val vote1 alice])) alice) =
  lam (get (at_end l) alice) + 280277.
Proof. split; [apply at_end_reachable; vm_compute; reflexivity|]. vm_compute. auto 10. Qed.
Lemma staker_settled e cx a w w' : env_ok e -> reachable e w -> run e cx (CHarvestSolStakerRewards a) w = Ok w' ->
  hs_keeper a <> Some (hs_config a) -> settled e (hs_config a) (hs_stake a) w'.
Proof.
  intros OK R RUN NK. apply run_ok in RUN as (_ & D & T & _). inversion D; subst.
  destruct (harvest_sol_collects _ _ _ _ _ OK (i_sane _ _ (inv_reachable _ _ OK R)) (reach_acc_ok _ _ _ OK R) H0 T)
    as (s & vw' & SA & SS & V' & _ & [(_ & C & _)|(DF & kp & K & F)]); [eapply collected_settled; eauto|].
  destruct F as [_ _ (ks & c & _ & IK & _ & ST & _)]; [congruence|]. apply ST, IK. left. auto.
Qed.
(** The first call may synchronise; the second finds the recorded SOL stake up to date. *)
Theorem C20_staker_harvest_twice e cx cx2 a w w' s' vw2 : env_ok e -> reachable e w -> wf_ctx e cx ->
  run e cx (CHarvestSolStakerRewards a) w = Ok w' -> hs_keeper a <> Some (hs_config a) ->
  sol_at e w' (hs_stake a) s' -> c_view cx2 = Some vw2 ->
  vw_effective vw2 = s_lamports s' -> vw_vote vw2 = vote (s_del s') ->
  exists w2, run e cx2 (CHarvestSolStakerRewards a) w' = Ok w2 /\ forall k, get w2 k = get w' k.
Proof.
  intros OK R WC RUN NK [SO SD] V2 Q1 Q2. assert (inv e w') as I.
  { eapply inv_step; [eauto|apply inv_reachable; eauto|]. eapply step_do; eauto. exact Logic.I. }
  pose proof (staker_settled _ _ _ _ _ OK R RUN NK) as ST.
  pose proof (inv_reachable _ _ OK R) as I0.
  destruct (run_settles _ _ _ _ _ OK (i_sane _ _ I0) (i_wf _ _ I0) RUN eq_refl NK) as (c & c' & C & C' & _ & L).
  cbn [call_config] in *.
  pose proof RUN as RUN'. apply run_ok in RUN' as (HN & D & T & _). inversion D as [| | | | | | | | | |? HS| | | | |]; subst.
  pose proof (hframe_harvested_sol _ _ _ _ _ HS) as HF. pose proof (evolves_harvested_sol _ _ _ _ _ HS) as EV.
  assert (exists s h, dat (get w (hs_stake a)) = DSol s /\ hs_authority a = authority (s_del s) /\ hs_native a = s_native s /\
    hs_stake a = e_sol e (s_native s) (hs_config a) /\
    hs_vhr a = e_holder e (e_vault e (hs_config a)) /\ dat (get w (hs_vhr a)) = DHolder h) as (s & h & DS & AU & NA & KK & VH & HH).
  { destruct HS; destruct H1; exists s, h; auto 8. }
  pose proof (ev_id _ _ _ EV (hs_stake a)) as ID. rewrite DS, SD in ID. rewrite (ev_own _ _ _ EV) in SO. destruct (ID SO) as [ID1 ID2].
  assert (hs_view a = e_view e) as VW.
  { clear - HN. cbn [handler] in HN. unfold harvest_sol_staker_rewards in HN. stepn HN x1 E1. stepn HN x2 E2.
    stepg HN G1. stepg HN G2. stepg HN G3. stepg HN G4. exact G4. }
  destruct (twice_noop e w' (hs_config a) (hs_stake a) (hs_vhr a) c' (s_del s') h) as (w2 & H2 & SM); auto.
  { rewrite SD. reflexivity. } { apply HF. auto. }
  exists w2. split; [|auto]. unfold run. cbn [handler]. unfold harvest_sol_staker_rewards, load_config, load_sol.
  destruct C' as [CO' CD']. rewrite CO', CD', (ev_own _ _ _ EV), SO, SD, !N.eqb_refl. cbn [require]. rewrite !bind_Ok.
  cbn [unpack_config unpack_sol]. rewrite !bind_Ok.
  rewrite require_true by (apply N.eqb_eq; congruence). rewrite bind_Ok.
  rewrite require_true by (apply N.eqb_eq; congruence). rewrite require_true by (apply N.eqb_eq; congruence). cbv zeta.
  rewrite require_true by (apply N.eqb_eq; exact VH). rewrite require_true by (apply N.eqb_eq; exact VW).
  rewrite V2, bind_Ok, Q1, Q2, !N.eqb_refl. cbn [negb orb]. rewrite bind_Ok.
  rewrite AU, <- ID2, H2, !bind_Ok, runtime_check_same; auto.
Qed.
Print Assumptions C20_staker_harvest_twice.
Example C20_staker_case : let l := firstn 10 story in
  let s := harvest_sol nat1 bob vote1 alice vote2 dave (Some carol) (View vote2 bob 700) in
  reachable denv (at_end l) /\ runs (l ++ [s; s]) = true /\ carol <> kcfg /\
  s_lamports (sol_of (at_end (l ++ [s])) ksol1) = 700 /\
  vote (s_del (sol_of (at_end (l ++ [s])) ksol1)) = vote2 /\
  lam (get (at_end (l ++ [s])) carol) = lam (get (at_end l) carol) + 100 /\
  lam (get (at_end (l ++ [s; s])) carol) = lam (get (at_end l) carol) + 100.
Proof.
  split; [apply at_end_reachable; vm_compute; reflexivity|]. split; [vm_compute; reflexivity|].
  split; [discriminate|]. vm_compute. auto 10.
Qed.

(** ** C22: no retroactive staking rewards *)
Lemma staked_settles e cx a n w w' c : env_ok e -> reachable e w -> run e cx c w = Ok w' ->
  c = CValidatorStakeTokens a n \/ c = CSolStakerStakeTokens a n ->
  exists d d' cf', stake_of e w (st_config a) (st_stake a) = Some d /\
    stake_of e w' (st_config a) (st_stake a) = Some d' /\ config_at e w' (st_config a) cf' /\
    staked d' = staked d + n /\ last_stake d' = acc_at w' (st_config a) /\ last_holder d' = holder_acc e w (st_config a).
Proof.
  intros OK R RUN CC. pose proof (inv_reachable _ _ OK R) as I0.
  assert (call_config c = st_config a /\ keeper_in c = None /\ syncs c = true) as (K1 & K2 & K3) by (destruct CC; subst c; auto).
  destruct (run_settles _ _ _ _ _ OK (i_sane _ _ I0) (i_wf _ _ I0) RUN K3) as (cf & cf' & C & C' & A & L); [rewrite K2; discriminate|].
  rewrite K1 in *. assert (staked_any e cx a n w w') as SA.
  { apply run_ok in RUN as (_ & D & _). destruct CC; subst c; inversion D; auto. }
  pose proof (staked_net _ _ _ _ _ _ OK SA) as CH. pose proof SA as [c0 Hco Hc0 Hso Hbel _].
  destruct (chained_stake _ _ _ _ _ _ _ _ CH Hso Hbel) as (c1 & d & h & rpt & sr & hr & RD & S1 & S2 & _); [auto|].
  pose proof (rd_c _ _ _ _ _ _ _ _ _ _ _ RD) as Dc.
  assert (cfg_acc c1 < U128) as AL by (eapply acc_wf; eauto; apply (i_wf _ _ I0)).
  destruct (reading_claims _ _ _ _ _ _ _ _ _ _ AL RD) as (_ & _ & _ & _ & E3 & E4).
  eexists d, _, cf'. split; [exact S1|]. split; [exact S2|]. split; [auto|]. cbn. split; [auto|]. split; [|auto].
  destruct C as [_ C], C' as [_ C']. rewrite (acc_at_eq _ _ _ C'). assert (c1 = cf) as -> by congruence.
  rewrite acc_now_seen; [rewrite A; auto|rewrite A; now apply acc_now_lt|lia].
Qed.
Theorem C22_no_claim_after_staking e cx a n w w' c : env_ok e -> reachable e w -> run e cx c w = Ok w' ->
  c = CValidatorStakeTokens a n \/ c = CSolStakerStakeTokens a n ->
  exists d d' cf', stake_of e w (st_config a) (st_stake a) = Some d /\
    stake_of e w' (st_config a) (st_stake a) = Some d' /\ staked d' = staked d + n /\
    config_at e w' (st_config a) cf' /\ stake_claim w' (st_config a) cf' d' = 0.
Proof.
  intros OK R RUN CC. destruct (staked_settles _ _ _ _ _ _ _ OK R RUN CC) as (d & d' & cf' & S & S' & C' & E & A & _).
  exists d, d', cf'. repeat (split; [assumption|]). unfold stake_claim. destruct C' as [_ C'].
  rewrite <- (acc_at_eq _ _ _ C'), A, since_same. reflexivity.
Qed.
Print Assumptions C22_no_claim_after_staking.
(* 722222 lamports are pending before, the stake goes up by 1000, nothing is pending after. *)
Example C22_staking_case : let l := firstn 7 story in
  let l' := l ++ [Call (cx [alice] 0 None 0) (CSolStakerStakeTokens (stake_accts_of ksol1 bob atok alice) 1000)] in
  reachable denv (at_end l) /\ runs l' = true /\ pending denv (at_end l) kcfg ksol1 = 722222 /\
  staked (s_del (sol_of (at_end l') ksol1)) = 3000 /\ pending denv (at_end l') kcfg ksol1 = 0.
Proof. split; [apply at_end_reachable; vm_compute; reflexivity|]. vm_compute. auto 10. Qed.
(** After a move the destination has no claim of either kind. *)
Theorem C22_no_claim_after_move e cx a n w w' : env_ok e -> reachable e w ->
  run e cx (CSolStakerMoveTokens a n) w = Ok w' ->
  exists d d', stake_of e w (mv_config a) (mv_dest a) = Some d /\
    stake_of e w' (mv_config a) (mv_dest a) = Some d' /\ staked d' = staked d + n /\
    pending e w' (mv_config a) (mv_dest a) = 0.
Proof.
  intros OK R RUN. pose proof (inv_reachable _ _ OK R) as I0.
  destruct (run_settles _ _ _ _ _ OK (i_sane _ _ I0) (i_wf _ _ I0) RUN eq_refl ltac:(discriminate)) as (cf & cf' & C & C' & A & L).
  cbn [call_config] in *. apply run_ok in RUN as (_ & D & _). inversion D; subst.
  pose proof (moved_net_ok _ _ _ _ _ _ H0) as []. pose proof (hframe_moved _ _ _ _ _ _ H0) as HF.
  assert (mv_dest a = e_sol e (s_native t) (mv_config a) /\ own (get w (mv_dest a)) = e_prog e) as [TK TO].
  { destruct H0. split; [|auto]. destruct (harvested_net _ _ _ _ _ _ _ _ _ H1) as (? & ? & ? & ? & ? & ? & RD & _ & _ & _ & _ & _ & _ & X1).
    rewrite X1 in Ht0; [congruence| |auto]. intros E. rewrite E in Ht. rewrite (rd_c _ _ _ _ _ _ _ _ _ _ _ RD) in Ht. discriminate. }
  assert (stake_of e w' (mv_config a) (mv_dest a) = Some dt) as SD.
  { apply stake_of_intro; [now rewrite Hown|rewrite Ht'; reflexivity|rewrite Ht'; exact TK]. }
  exists (s_del t), dt. split; [apply stake_of_intro; auto; rewrite Ht; auto|]. split; [auto|]. split; [now rewrite Hdt|].
  rewrite (pending_eq _ _ _ _ _ Hc'), SD. apply claim_settled.
  - rewrite Hla, (acc_at_eq _ _ _ Hc'). destruct C' as [_ C']. assert (c' = cf') as -> by congruence.
    symmetry. apply acc_now_seen; [|lia]. rewrite A. apply acc_now_lt. destruct C as [_ C]. eapply acc_wf; [|exact C].
    apply (i_wf _ _ I0).
  - destruct Hlh as (h & HH & ->). rewrite (holder_acc_hframe _ _ _ _ HF). unfold holder_acc. now rewrite HH.
Qed.
Print Assumptions C22_no_claim_after_move.
(* In a history where the destination itself had a claim before. *)
Definition move_pending : list act :=
  setup ++ [init_sol nat2 vote2 bob 5000;
    Call (cx [alice] 0 None 0) (CSolStakerStakeTokens (stake_accts_of ksol2 bob atok alice) 700);
    Pay carol kcfg 1000000].
Example C22_move_case : let l := move_pending in let l' := l ++ [move nat1 nat2 bob 800] in
  reachable denv (at_end l) /\ runs l' = true /\ pending denv (at_end l) kcfg ksol2 = 280000 /\
  pending denv (at_end l') kcfg ksol2 = 0 /\
  lam (get (at_end l') bob) =
  lam (get (at_end l) bob) + pending denv (at_end l) kcfg ksol1 + pending denv (at_end l) kcfg ksol2.
Proof. split; [apply at_end_reachable; vm_compute; reflexivity|]. vm_compute. auto 10. Qed.

(** ** C39: the holder claim right after staking *)
Theorem C39_holder_claim_after_staking e cx a n w w' c : env_ok e -> reachable e w -> run e cx c w = Ok w' ->
  c = CValidatorStakeTokens a n \/ c = CSolStakerStakeTokens a n ->
  exists d', stake_of e w' (st_config a) (st_stake a) = Some d' /\
    holder_claim e w' (st_config a) d' =
      since (holder_acc e w' (st_config a)) (holder_acc e w (st_config a)) * staked d' / 10 ^ 18 /\
    (holder_acc e w' (st_config a) = holder_acc e w (st_config a) ->
     pending e w' (st_config a) (st_stake a) = 0).
Proof.
  intros OK R RUN CC. destruct (staked_settles _ _ _ _ _ _ _ OK R RUN CC) as (d & d' & cf' & S & S' & [_ C'] & E & A & B).
  exists d'. split; [auto|]. split; [unfold holder_claim; now rewrite B|]. intros HE.
  rewrite (pending_eq _ _ _ _ _ C'), S'. apply claim_settled; congruence.
Qed.
Print Assumptions C39_holder_claim_after_staking.
(** The property fails: the vault's accumulator advances during the deposit, after
    the program has recorded it, so the account is owed 5 lamports on each of the
    1000 new tokens as well. *)
Definition deposit_advances : act :=
  Call (cx [alice] 0 None (5 * 10 ^ 18)) (CSolStakerStakeTokens (stake_accts_of ksol1 bob atok alice) 1000).
Theorem C39_no_retroactive_holder_claim_refuted :
  ~ (forall e cx a n w w', env_ok e -> reachable e w -> run e cx (CSolStakerStakeTokens a n) w = Ok w' ->
       pending e w' (st_config a) (st_stake a) <= holder_acc e w' (st_config a) * staked (s_del (sol_of w (st_stake a))) / 10 ^ 18).
Proof.
  intros H. destruct (at_end_run setup (cx [alice] 0 None (5 * 10 ^ 18))
    (CSolStakerStakeTokens (stake_accts_of ksol1 bob atok alice) 1000)) as (_ & _ & R); [vm_compute; reflexivity|].
  specialize (H _ _ _ _ _ _ denv_ok (at_end_reachable setup eq_refl) R). revert H. vm_compute. intros H. apply H. reflexivity.
Qed.
Print Assumptions C39_no_retroactive_holder_claim_refuted.
Example C39_case : let l' := setup ++ [deposit_advances] in
  reachable denv (at_end setup) /\ runs l' = true /\
  staked (s_del (sol_of (at_end setup) ksol1)) = 2000 /\ staked (s_del (sol_of (at_end l') ksol1)) = 3000 /\
  pending denv (at_end l') kcfg ksol1 = 5 * 3000 /\
  holder_acc denv (at_end l') kcfg = 5 * 10 ^ 18 /\ holder_acc denv (at_end setup) kcfg = 0 /\
  (* when it does not advance nothing is owed *)
  pending denv (at_end (setup ++ [stake_sol nat1 bob btok bob 1000 0])) kcfg ksol1 = 0 /\
  runs (setup ++ [stake_sol nat1 bob btok bob 1000 0]) = true.
Proof. split; [apply at_end_reachable; vm_compute; reflexivity|]. vm_compute. auto 10. Qed.

(** ** C26: holder rewards are not staking rewards *)
Theorem C26_holder_harvest e cx a w w' : env_ok e -> reachable e w -> run e cx (CHarvestHolderRewards a) w = Ok w' ->
  let ck := hh_config a in let vk := e_vault e ck in
  exists c c' paid, config_at e w ck c /\ config_at e w' ck c' /\
    lam (get w' (hh_pool a)) + paid = lam (get w (hh_pool a)) /\ hh_pool a <> ck /\ hh_pool a <> vk /\ vk <> ck /\
    holder_acc e w' ck = c_pool_acc cx mod 2 ^ 128 /\
    paid = since (holder_acc e w' ck) (holder_acc e w ck) * deposit e w ck / 10 ^ 18 /\
    lam (get w' vk) = e_rent e 0 /\
    lam (get w' ck) + e_rent e 0 = lam (get w ck) + lam (get w vk) + paid /\
    cfg_last c' = lam (get w' ck) /\ cfg_effective c' = cfg_effective c /\
    cfg_acc c' = acc_now (lam (get w ck)) c /\
    (forall k, k <> hh_pool a -> k <> ck -> k <> vk -> lam (get w' k) = lam (get w k)).
Proof.
  intros OK R RUN ck0 vk0. subst vk0 ck0. pose proof (inv_reachable _ _ OK R) as I0. pose proof (i_sane _ _ I0) as S.
  destruct (run_settles _ _ _ _ _ OK S (i_wf _ _ I0) RUN eq_refl ltac:(discriminate)) as (cf & cf' & C & C' & A & L).
  cbn [call_config] in *. apply run_ok in RUN as (_ & D & _). inversion D; subst. destruct H0.
  pose proof (vault_auth_eq _ _ _ _ _ OK S (conj Hco Hc0) Hva) as EV.
  rewrite EV in *. remember (hh_config a) as ck eqn:CK in *. remember (e_vault e ck) as vk eqn:VK in *.
  assert (vk <> ck) as NV by (rewrite VK; eapply config_not_vault; eauto).
  destruct (sane_cfg _ _ S _ _ C) as (_ & _ & _ & VO & VD). rewrite <- VK in VO, VD.
  destruct H1 as [c1 rpt Hc1 Hl1 Hr1 Hw1]. assert (c1 = cf) as -> by (destruct C; congruence).
  assert (forall k, lam (get w1 k) = lam (get w k)) as L1 by (intros; rewrite Hw1; ws; auto).
  assert (forall k, own (get w1 k) = own (get w k)) as O1 by (intros; rewrite Hw1; ws; auto).
  destruct H2 as [h r Hp Hpo Hsg Hvh Hvo Hh Hpr Hav Ho Hdat Hl Hlb Hlp].
  assert (dat (get w (hh_vhr a)) = DHolder h) as Hh0.
  { rewrite Hw1 in Hh. wsi Hh. destruct (ck =? hh_vhr a); [discriminate|auto]. }
  assert (holder_acc e w ck = h_last h /\ deposit e w ck = h_deposited h) as [HA HD].
  { unfold holder_acc, deposit. rewrite <- VK, <- Hvh, Hh0. auto. }
  assert (hh_vhr a <> ck) as NH by (intros E; rewrite E in Hh0; destruct C; congruence).
  assert (holder_acc e w' ck = c_pool_acc cx mod 2 ^ 128) as HA'.
  { unfold holder_acc. rewrite <- VK, <- Hvh, H4, H3. ws. rewrite (proj2 (N.eqb_neq _ _) (not_eq_sym NH)).
    rewrite Hdat, N.eqb_refl. reflexivity. }
  assert (hh_pool a <> ck) as NP. { apply (config_not_pool e w ck cf _ OK C). rewrite <- O1. exact Hpo. }
  assert (hh_pool a <> vk) as NPV.
  { intros E. rewrite E, O1 in Hpo. destruct (prog_ids _ OK) as (_ & _ & P & _ & _ & _ & _ & P0). destruct VO; congruence. }
  assert (dat (get w2 vk) = DRaw []) as DV2.
  { rewrite Hdat. destruct (N.eqb_spec (hh_vhr a) vk) as [E|].
    - rewrite E, Hw1 in Hh. wsi Hh. destruct (ck =? vk) eqn:E2; [discriminate|]. congruence.
    - rewrite Hw1. ws. destruct (N.eqb_spec ck vk); congruence. }
  rewrite DV2 in *. change (data_len (DRaw [])) with 0 in *.
  assert (pay_lam w1 (hh_pool a) vk r vk = lam (get w vk) + r) as PV.
  { unfold pay_lam. destruct (N.eqb_spec r 0) as [->|]; [rewrite L1; lia|]. rewrite N.eqb_refl.
    destruct (N.eqb_spec (hh_pool a) vk); [congruence|]. now rewrite L1. }
  assert (pay_lam w1 (hh_pool a) vk r (hh_pool a) + r = lam (get w (hh_pool a))) as PP.
  { unfold pay_lam. rewrite !L1 in *. destruct (N.eqb_spec r 0) as [->|]; [lia|]. rewrite N.eqb_refl.
    destruct (N.eqb_spec vk (hh_pool a)); [congruence|]. lia. }
  rewrite (Hl vk), PV in *.
  assert (forall k, lam (get w' k) = if ck =? k then lam (get w ck) + (lam (get w vk) + r - e_rent e 0)
     else if vk =? k then e_rent e 0 else pay_lam w1 (hh_pool a) vk r k) as LL.
  { intros k. rewrite H4, H3. ws. rewrite (Hl ck), (Hl k).
    rewrite (pay_lam_other _ _ _ _ ck) by auto. rewrite L1. destruct (N.eqb_spec vk ck); [congruence|].
    destruct (ck =? k); auto. }
  exists cf, cf', r. split; [auto|]. split; [auto|].
  assert (cfg_effective cf' = cfg_effective cf) as EE.
  { destruct C' as [_ C']. rewrite H4 in C'. wsi C'. rewrite N.eqb_refl in C'. injection C' as <-. cbn.
    rewrite Hdat in Hc. destruct (N.eqb_spec (hh_vhr a) ck); [discriminate|]. rewrite Hw1 in Hc. wsi Hc. rewrite N.eqb_refl in Hc.
    injection Hc as <-. reflexivity. }
  rewrite !LL. rewrite !N.eqb_refl. destruct (N.eqb_spec ck (hh_pool a)); [congruence|].
  destruct (N.eqb_spec vk (hh_pool a)); [congruence|]. destruct (N.eqb_spec ck vk); [congruence|].
  repeat split; auto; try lia.
  - rewrite HA', HA, HD. now apply pool_reward_eq.
  - rewrite L, LL, N.eqb_refl. reflexivity.
  - intros k N1 N2 N3. rewrite LL. destruct (N.eqb_spec ck k); [congruence|]. destruct (N.eqb_spec vk k); [congruence|].
    rewrite pay_lam_other; auto.
Qed.
Print Assumptions C26_holder_harvest.
(* The rewards program pays 12500 into the vault, which also holds 30 stray lamports. *)
Example C26_case : let l := setup ++ [Pay carol kpda 30; Pay carol kcfg 1000] in let l' := l ++ [harvest_holder (5 * 10 ^ 18)] in
  reachable denv (at_end l) /\ runs l' = true /\
  lam (get (at_end l') kpool) + 12500 = lam (get (at_end l) kpool) /\
  lam (get (at_end l') kpda) = rent 0 /\ lam (get (at_end l') kcfg) = lam (get (at_end l) kcfg) + 12530 /\
  cfg_acc (cfg_of (at_end l') kcfg) = cfg_acc (cfg_of (at_end l) kcfg) + 1000 * 10 ^ 18 / 1800.
Proof. split; [apply at_end_reachable; vm_compute; reflexivity|]. vm_compute. auto 10. Qed.

(** ** C44: lamports arriving with no effective stake *)
(** A stretch of history during which the effective total is zero before each
    event (and no keeper payment goes to the config itself). *)
Inductive idle (e : env) (ck : pubkey) : world -> world -> Prop :=
| idle_here w : idle e ck w w
| idle_on w w1 cf ev w2 : idle e ck w w1 -> config_at e w1 ck cf -> cfg_effective cf = 0 ->
    step e w1 ev w2 -> (forall cx c, ev = Do cx c -> keeper_in c <> Some ck) -> idle e ck w w2.
Lemma idle_step e ck cf w ev w' : env_ok e -> reachable e w -> config_at e w ck cf -> cfg_effective cf = 0 ->
  step e w ev w' -> (forall cx c, ev = Do cx c -> keeper_in c <> Some ck) ->
  acc_at w' ck = acc_at w ck.
Proof.
  intros OK R C Z ST NK. destruct ST as [w cx c w' WC CL RUN|w w' RL].
  - destruct (N.eq_dec (call_config c) ck) as [<-|NE]; [eapply run_acc_at; eauto|].
    destruct (isolated_run _ _ _ _ _ ck OK R RUN) as (_ & _ & CI & _); [auto|].
    apply CI in C as C'. destruct C as [_ C], C' as [_ C'].
    rewrite (acc_at_eq _ _ _ C), (acc_at_eq _ _ _ C'). unfold acc_now. now rewrite Z.
  - destruct C as [O C]. destruct (rely_kept _ _ _ ck RL O) as (_ & D & _); [intros [m ZZ]; congruence|]. rewrite C in D.
    rewrite (acc_at_eq _ _ _ C), (acc_at_eq _ _ _ D). unfold acc_now. now rewrite Z.
Qed.
Lemma idle_reachable e ck w w' : reachable e w -> idle e ck w w' -> reachable e w'.
Proof. intros R. induction 1 as [|w w1 c1 ev w2 ID IH]; auto. apply (reachable_step e w1 ev w2); auto. Qed.
Theorem C44_idle_lamports_distributed_to_nobody e ck w w' cf cf' d : env_ok e -> reachable e w -> idle e ck w w' ->
  config_at e w ck cf -> config_at e w' ck cf' ->
  stake_claim w' ck cf' d = stake_claim w ck cf d.
Proof.
  intros OK R ID [_ C] [_ C']. assert (acc_at w' ck = acc_at w ck) as E.
  { clear C C' cf'. induction ID as [|w w1 c1 ev w2 ID IH C1 Z ST NK]; auto. rewrite <- IH by auto. eapply idle_step; eauto.
    eapply idle_reachable; eauto. }
  rewrite (acc_at_eq _ _ _ C), (acc_at_eq _ _ _ C') in E. unfold stake_claim. now rewrite E.
Qed.
Print Assumptions C44_idle_lamports_distributed_to_nobody.
(** While the effective total is zero every stake account's staking claim is zero. *)
Theorem C44_idle_claims_zero e w ck cf k d : env_ok e -> reachable e w -> config_at e w ck cf -> cfg_effective cf = 0 ->
  stake_of e w ck k = Some d -> effective d = 0 /\ stake_claim w ck cf d = 0.
Proof.
  intros OK R C Z S. pose proof (inv_reachable _ _ OK R) as I. pose proof (i_eff _ _ I _ _ C) as E.
  pose proof (sum_of_ge _ _ _ effective _ _ S). assert (effective d = 0) as Q by lia. split; [auto|].
  unfold stake_claim. rewrite Q, N.mul_0_r. reflexivity.
Qed.
Print Assumptions C44_idle_claims_zero.
(** Every synchronising instruction records the balance as seen. *)
Theorem C44_seen e cx c w w' : env_ok e -> reachable e w -> run e cx c w = Ok w' -> syncs c = true ->
  keeper_in c <> Some (call_config c) -> exists cf', config_at e w' (call_config c) cf' /\
    cfg_last cf' = lam (get w' (call_config c)) /\ cfg_acc cf' = acc_at w (call_config c).
Proof.
  intros OK R RUN Y NK. pose proof (inv_reachable _ _ OK R) as I0.
  destruct (run_settles _ _ _ _ _ OK (i_sane _ _ I0) (i_wf _ _ I0) RUN Y NK) as (cf & cf' & [_ C] & C' & A & L).
  exists cf'. split; [auto|]. split; [auto|]. now rewrite (acc_at_eq _ _ _ C).
Qed.
Print Assumptions C44_seen.
(* 1000000 lamports arrive before anybody has staked: nobody ever gets them. *)
Definition idle_story : list act :=
  firstn 4 setup ++ [Pay carol kcfg 1000000; stake_val vote1 alice atok alice 500].
Example C44_case : let l := firstn 4 setup in let l' := idle_story in
  reachable denv (at_end l) /\ runs l' = true /\ idle denv kcfg (at_end l) (at_end l') /\
  cfg_effective (cfg_of (at_end l) kcfg) = 0 /\ 0 < cfg_effective (cfg_of (at_end l') kcfg) /\
  lam (get (at_end l') kcfg) = lam (get (at_end l) kcfg) + 1000000 /\
  cfg_last (cfg_of (at_end l') kcfg) = lam (get (at_end l') kcfg) /\
  pending denv (at_end l') kcfg kval1 = 0.
Proof.
  split; [apply at_end_reachable; vm_compute; reflexivity|]. split; [vm_compute; reflexivity|]. split.
  - eapply (idle_on _ _ _ (at_end (firstn 5 idle_story)) (cfg_of (at_end (firstn 5 idle_story)) kcfg)
              (event_of (stake_val vote1 alice atok alice 500))).
    + eapply (idle_on _ _ _ (at_end (firstn 4 idle_story)) (cfg_of (at_end (firstn 4 idle_story)) kcfg)
                (event_of (Pay carol kcfg 1000000))).
      * constructor.
      * split; vm_compute; reflexivity.
      * vm_compute. reflexivity.
      * apply (at_end_step (firstn 4 idle_story)). vm_compute. reflexivity.
      * intros ? ? [=].
    + split; vm_compute; reflexivity.
    + vm_compute. reflexivity.
    + apply (at_end_step (firstn 5 idle_story)). vm_compute. reflexivity.
    + intros ? ? [= <- <-]. discriminate.
  - vm_compute. auto 10.
Qed.
