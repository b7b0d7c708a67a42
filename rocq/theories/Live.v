(** When the instructions go through. *)
From Verif Require Import Base Types Layout Math External Processor Runtime History Spec SpecReward SpecLive
  WorldLemmas Effects Handlers Evolve Sane Wf Totals Arith Nets Caps Stakers Deposits Inv Life Rewards Collect Progress Solvency.

Lemma total_ge w k : lam (get w k) <= total_lamports w.
Proof. pose proof (total_setl w k 0). lia. Qed.
Lemma total_ge2 w k j : k <> j -> lam (get w k) + lam (get w j) <= total_lamports w.
Proof.
  intros NE. pose proof (total_setl w k 0) as T. pose proof (total_ge (setl w k 0) j) as G. wsi G.
  destruct (N.eqb_spec k j); [congruence|]. lia.
Qed.

Lemma harvest_runs_with e w ck vhr auth va sk keeper c d h rpt sr hr :
  reading e w ck va sk c d h rpt sr hr -> auth = authority d -> vhr = e_holder e va -> lam (get w ck) < U64 ->
  (forall kp, keeper = Some kp -> lam (get w kp) + (sr + hr) < U64) ->
  lam (get w auth) + (sr + hr) < U64 -> exists w', harvest e w ck vhr auth va sk keeper = Ok w'.
Proof.
  intros [] AU VH L LK LA. unfold harvest. rewrite rd_d, bind_Ok, require_true by now apply N.eqb_eq.
  unfold sync_config_lamports. rewrite rd_c. simpl unpack_config. rewrite bind_Ok.
  rewrite csub_le by auto. rewrite bind_Ok, rd_r, bind_Ok, bind_Ok.
  assert (sk <> ck) as NS. { intros ->. rewrite rd_c in rd_d. discriminate. }
  assert (e_holder e va <> ck) as NH by (intros E; rewrite E in rd_h; congruence).
  assert (e_holder e va <> sk) as NH2 by (intros E; rewrite E in rd_h; rewrite rd_h in rd_d; discriminate).
  ws. rewrite N.eqb_refl. simpl unpack_config. rewrite bind_Ok. cbn [cfg_acc set_cfg_last set_cfg_acc cfg_sync].
  rewrite rd_sr, bind_Ok, require_true by now apply N.eqb_eq. subst vhr.
  ws. rewrite (N.eqb_sym ck), (proj2 (N.eqb_neq _ _) NH). rewrite rd_h. simpl unpack_holder. rewrite bind_Ok, rd_hr, bind_Ok.
  rewrite add64_lt by lia. rewrite bind_Ok. cbv zeta. ws. rewrite csub_le by auto. rewrite bind_Ok.
  rewrite assert_true by now apply N.leb_le. destruct keeper as [kp|].
  - specialize (LK kp eq_refl). rewrite add64_lt by (ws; lia). rewrite !bind_Ok. rewrite csub_le by lia. rewrite bind_Ok.
    ws. rewrite add64_lt; [rewrite bind_Ok; eauto|]. destruct (N.eqb_spec kp auth) as [->|]; lia.
  - rewrite bind_Ok. rewrite csub_le by lia. rewrite bind_Ok.
    ws. rewrite N.sub_0_r. rewrite add64_lt by lia. rewrite bind_Ok. eauto.
Qed.

(** What is needed of the world while an instruction of config [ck] runs. *)
Record ready (e : env) (ck : pubkey) (w : world) : Prop := {
  re_sane : sane e w;
  re_wf : wf_world w;
  re_eff : effsum e w;
  re_le : forall k d, stake_of e w ck k = Some d -> effective d <= staked d;
  re_sum : sum_of e w ck staked < U64;
  re_cfg : exists c, config_at e w ck c /\ cfg_last c <= lam (get w ck);
  re_hold : exists h, dat (get w (e_holder e (e_vault e ck))) = DHolder h;
  re_tot : total_lamports w < U64;
}.
Lemma ready_inv e ck w c h : inv e w -> config_at e w ck c -> dat (get w (e_holder e (e_vault e ck))) = DHolder h ->
  total_lamports w < U64 -> ready e ck w.
Proof.
  intros I C H T. split; try apply I; auto; eauto.
  - intros k d S. apply stake_of_some in S as (O & D & _). pose proof (i_caps _ _ I k O) as K.
    apply del_of_ok in D as [(v & D & <-)|(s & D & <-)]; rewrite D in K; simpl in K; lia.
  - pose proof (i_backed _ _ I ck) as B. unfold deposit in B. rewrite H in B.
    pose proof (wf_dat _ (e_holder e (e_vault e ck)) (i_wf _ _ I)) as W. rewrite H in W. simpl in W. lia.
  - exists c. split; [auto|]. apply (i_lamp _ _ I _ _ C).
Qed.
Lemma sum_of_same e w ck g g' : (forall k d, stake_of e w ck k = Some d -> g d = g' d) ->
  sum_of e w ck g = sum_of e w ck g'.
Proof.
  intros H. unfold sum_of. apply wsum_eq; auto using sum_of_zero_default.
  intros k. specialize (H k). unfold stake_of in H. destruct (stake_in e ck k (get w k)); auto.
Qed.
Lemma ready_sum e ck w c k d : ready e ck w -> config_at e w ck c -> stake_of e w ck k = Some d ->
  effective d <= cfg_effective c /\ cfg_effective c - effective d + staked d <= sum_of e w ck staked.
Proof.
  intros [] C S. pose proof (re_eff0 _ _ C) as E. rewrite E. split; [now apply (sum_of_ge e w ck effective k d)|].
  assert (sum_of e w ck staked = sum_of e w ck effective + sum_of e w ck (fun d => staked d - effective d)) as EQ.
  { rewrite <- sum_of_add. apply sum_of_same. intros k' d' S'. specialize (re_le0 _ _ S'). lia. }
  pose proof (sum_of_ge e w ck (fun d => staked d - effective d) k d S) as G. cbv beta in G.
  specialize (re_le0 _ _ S). pose proof (sum_of_ge e w ck effective k d S). lia.
Qed.
Lemma ready_room e ck w c k d : ready e ck w -> config_at e w ck c -> stake_of e w ck k = Some d ->
  effective d <= cfg_effective c /\ cfg_effective c - effective d + staked d < U64.
Proof. intros RY C S. destruct (ready_sum _ _ _ _ _ _ RY C S). pose proof (re_sum _ _ _ RY). split; lia. Qed.
Lemma ready_config e ck w : ready e ck w -> exists c, config_at e w ck c.
Proof. intros []. destruct re_cfg0 as (c & C & _). eauto. Qed.

(** [ready] survives a change to one stake account that keeps the books. *)
Lemma ready_step e ck sk w w' d d' : env_ok e -> ready e ck w -> evolves e w w' -> wf_world w' -> pstep e ck w w' ->
  stake_of e w ck sk = Some d -> stake_of e w' ck sk = Some d' ->
  (forall k, k <> sk -> stake_of e w' ck k = stake_of e w ck k) ->
  effective d' <= staked d' -> staked d' <= staked d -> hframe w w' ->
  (exists c, config_at e w' ck c /\ cfg_last c <= lam (get w' ck)) ->
  total_lamports w' = total_lamports w -> ready e ck w'.
Proof.
  intros OK [] EV WF PS S S' OT LE LS HF C T. split; auto.
  - eapply sane_evolves; eauto.
  - eapply effsum_pstep; eauto.
  - intros k x X. destruct (N.eq_dec k sk) as [->|NE]; [congruence|]. rewrite OT in X by auto. eauto.
  - pose proof (sum_of_at e w w' ck staked sk d d' S S' OT). lia.
  - destruct re_hold0 as [h H]. exists h. now apply HF.
  - lia.
Qed.

(** Accounts outside [l] stay as they were. *)
Definition touches (l : list pubkey) (w w' : world) : Prop := forall k, ~ In k l -> get w' k = get w k.
Lemma touches_refl l w : touches l w w.
Proof. intros k _. reflexivity. Qed.
Lemma touches_trans l w1 w2 w3 : touches l w1 w2 -> touches l w2 w3 -> touches l w1 w3.
Proof. intros A B k N. rewrite B, A; auto. Qed.
Lemma touches_incl l l' w w' : touches l w w' -> incl l l' -> touches l' w w'.
Proof. intros A I k N. apply A. intros X. apply N, I, X. Qed.
Lemma touches_setd k D w : touches [k] w (setd w k D).
Proof.
  intros x N. apply account_ext; ws; auto. destruct (N.eqb_spec k x) as [->|]; auto. simpl in N. tauto.
Qed.
Lemma touches_put_del k D w : touches [k] w (put_del w k D).
Proof. apply touches_setd. Qed.
Lemma touches_resync w ck sk lim w' : resynced w ck sk lim w' -> touches [ck; sk] w w'.
Proof.
  intros [] k N. simpl in N. apply account_ext; auto. rewrite Hdat.
  destruct (N.eqb_spec ck k); [tauto|]. destruct (N.eqb_spec sk k); [tauto|auto].
Qed.
Lemma runtime_check_touches cx l w w' : touches l w w' -> total_lamports w' = total_lamports w ->
  (forall k, In k l -> writable cx k = true) -> runtime_check cx w w' = Ok tt.
Proof.
  intros A T W. unfold runtime_check. rewrite require_true by (apply N.eqb_eq; auto).
  replace (forallb _ _) with true; [reflexivity|]. symmetry. apply forallb_forall. intros k _.
  destruct (in_dec N.eq_dec k l) as [I|N]; [rewrite W by auto; apply orb_true_r|].
  rewrite A by auto. now rewrite bool_decide_true.
Qed.

(** ** Running the parts *)
Lemma sync_runs w ck sk l lmin c d : dat (get w ck) = DConfig c -> del_of (dat (get w sk)) = Ok d ->
  effective d <= cfg_effective c -> cfg_effective c - effective d + staked d < U64 ->
  N.max l lmin < U64 -> cap (N.max l lmin) < U64 -> exists w', sync_effective w ck sk l lmin = Ok w'.
Proof.
  intros C D E R L K. unfold sync_effective. rewrite C, D. simpl unpack_config. rewrite !bind_Ok.
  rewrite maxstake_eq by auto. unfold cap in K. rewrite (proj2 (N.ltb_lt _ _) K). rewrite bind_Ok. cbv zeta.
  rewrite csub_le by auto. rewrite bind_Ok. rewrite add64_lt by lia. rewrite bind_Ok. eauto.
Qed.

(** A harvest the config can pay for goes through. *)
Lemma reading_exists e ck w c sk d : ready e ck w -> config_at e w ck c -> stake_of e w ck sk = Some d ->
  pending e w ck sk + e_rent e CONFIG_LEN <= lam (get w ck) ->
  exists h rpt sr hr, reading e w ck (e_vault e ck) sk c d h rpt sr hr /\ pending e w ck sk = sr + hr.
Proof.
  intros RY C S P. pose proof (re_wf _ _ _ RY) as WF. destruct (re_hold _ _ _ RY) as [h H].
  destruct (re_cfg _ _ _ RY) as (c0 & C0 & L). assert (c0 = c) as -> by (destruct C, C0; congruence).
  pose proof C as [CO CD]. pose proof S as S'. apply stake_of_some in S' as (SO & D & B).
  pose proof (wf_lam _ ck WF) as LB.
  assert (cfg_acc c < U128) as AB by (pose proof (wf_dat _ ck WF) as W; rewrite CD in W; simpl in W; tauto).
  unfold pending in P. rewrite S, CD in P. unfold stake_claim, holder_claim in P.
  assert (holder_acc e w ck = h_last h) as HA by (unfold holder_acc; now rewrite H).
  set (sr := since (acc_now (lam (get w ck)) c) (last_stake d) * effective d / 10 ^ 18) in *.
  set (hr := since (holder_acc e w ck) (last_holder d) * staked d / 10 ^ 18) in *.
  pose proof (rpt_exact (lam (get w ck) - cfg_last c) (cfg_effective c) ltac:(lia)) as RP.
  exists h, (if cfg_effective c =? 0 then 0 else (lam (get w ck) - cfg_last c) * 10 ^ 18 / cfg_effective c), sr, hr.
  pose proof (acc_now_rpt _ _ _ AB RP) as AR.
  split; [|unfold pending; now rewrite S, CD].
  split; auto; try lia.
  - rewrite AR, eligible_eq, since_wsub. change SCALE with (10 ^ 18). fold sr.
    destruct (N.ltb_spec sr U64); [reflexivity|lia].
  - rewrite eligible_eq, since_wsub, <- HA. change SCALE with (10 ^ 18). fold hr.
    destruct (N.ltb_spec hr U64); [reflexivity|lia].
Qed.

Record gone (e : env) (ck sk auth : pubkey) (keeper : option pubkey) (l : list pubkey) (w w' : world) : Prop := {
  go_ready : ready e ck w';
  go_coll : collected e ck sk w w';
  go_tot : total_lamports w' = total_lamports w;
  go_touch : touches l w w';
  go_paid : lam (get w' ck) + pending e w ck sk = lam (get w ck);
  go_last : forall c, dat (get w' ck) = DConfig c -> cfg_last c = lam (get w' ck);
  go_own : forall k, own (get w' k) = own (get w k);
  go_gain : keeper = None -> lam (get w' auth) = lam (get w auth) + pending e w ck sk;
  go_dat : forall k, k <> ck -> k <> sk -> dat (get w' k) = dat (get w k);
}.
Definition opt_list (o : option pubkey) : list pubkey := match o with Some k => [k] | None => [] end.

Lemma harvest_goes e ck w c sk d auth vhr keeper : env_ok e -> ready e ck w -> config_at e w ck c ->
  stake_of e w ck sk = Some d -> auth = authority d -> auth <> ck -> keeper <> Some ck ->
  vhr = e_holder e (e_vault e ck) -> pending e w ck sk + e_rent e CONFIG_LEN <= lam (get w ck) ->
  exists w', harvest e w ck vhr auth (e_vault e ck) sk keeper = Ok w' /\
    harvested e w ck vhr auth (e_vault e ck) sk keeper w' /\
    gone e ck sk auth keeper (ck :: sk :: auth :: opt_list keeper) w w' /\
    exists a h, dat (get w' sk) = upd_del (dat (get w sk)) (set_lasts d h a) /\
    exists a l, dat (get w' ck) = DConfig (set_cfg_last (set_cfg_acc c a) l).
Proof.
  intros OK RY C S AU NA NK VH P. destruct (reading_exists _ _ _ _ _ _ RY C S P) as (h & rpt & sr & hr & RD & PE).
  pose proof (re_wf _ _ _ RY) as WF. pose proof (re_tot _ _ _ RY) as TT.
  assert (forall k, k <> ck -> lam (get w k) + (sr + hr) < U64) as ROOM.
  { intros k NE. pose proof (total_ge2 w k ck NE). pose proof (rd_lam _ _ _ _ _ _ _ _ _ _ _ RD). lia. }
  destruct (harvest_runs_with _ _ _ _ _ _ _ keeper _ _ _ _ _ _ RD AU VH) as [w' H]; auto using wf_lam.
  { intros kp ->. apply ROOM. congruence. }
  exists w'. split; [auto|]. apply harvest_ok in H. split; [auto|].
  pose proof S as S'. apply stake_of_some in S' as (SO & D & B).
  destruct (total_harvest _ _ _ _ _ _ _ _ _ H NK) as (x1 & x2 & x3 & x4 & x5 & x6 & RD2 & T).
  rewrite (proj2 (N.eqb_neq _ _) NA), N.add_0_r in T.
  destruct (harvest_collects _ _ _ _ _ _ _ _ H NK SO B (acc_wf _ _ WF) T) as (CL & c' & D' & PO).
  pose proof (pstep_harvest _ _ _ _ _ _ _ _ _ _ (proj1 C) S H) as PS.
  pose proof (harvested_sk _ _ _ _ _ _ _ _ _ H) as NS.
  pose proof (settles_harvest _ _ _ _ _ _ _ _ _ H NK) as ST.
  pose proof (last_settles _ _ _ ST (acc_wf _ _ WF) T) as LS.
  assert (lam (get w' ck) + pending e w ck sk = lam (get w ck)) as PC.
  { specialize (PO ck). rewrite N.eqb_refl in PO. destruct (N.eqb_spec ck auth); [congruence|]. rewrite N.add_0_r in PO.
    destruct keeper as [kp|]; [destruct (N.eqb_spec kp ck); [congruence|]|]; lia. }
  destruct (harvested_net _ _ _ _ _ _ _ _ _ H) as (y1 & y2 & y3 & y4 & y5 & y6 & RD3 & _ & _ & O1 & L1 & C1 & S1 & X1).
  pose proof (rd_c _ _ _ _ _ _ _ _ _ _ _ RD3) as E1. pose proof (rd_d _ _ _ _ _ _ _ _ _ _ _ RD3) as E2.
  rewrite (proj2 C) in E1. injection E1 as <-. rewrite D in E2. injection E2 as <-.
  rewrite (with_del_ok _ _ _ D) in S1.
  assert (stake_of e w' ck sk = Some (settle_del c y4 y3 d)) as SD'.
  { destruct (co_self _ _ _ _ _ CL) as (d1 & d2 & Q1 & Q2 & _). rewrite Q2. apply stake_of_some in Q2 as (_ & Q2 & _).
    rewrite S1 in Q2. erewrite del_of_upd' in Q2 by eauto. congruence. }
  split.
  - split; auto.
    + eapply (ready_step e ck sk w w' d (settle_del c y4 y3 d)); eauto.
      * eapply evolves_harvest; eauto.
      * eapply wf_harvest; eauto.
      * exact (co_oth _ _ _ _ _ CL).
      * cbn. exact (re_le _ _ _ RY _ _ S).
      * eapply hframe_harvest; eauto.
      * eexists. split; [split; [rewrite O1; apply C|exact C1]|]. rewrite (LS _ C1). lia.
    + intros k N. simpl in N. apply account_ext; auto.
      * pose proof (PO k) as Q. destruct (N.eqb_spec k ck) as [E|_]; [exfalso; apply N; auto|].
        destruct (N.eqb_spec k auth) as [E|_]; [exfalso; apply N; auto|].
        destruct keeper as [kp|]; [|lia]. destruct (N.eqb_spec kp k) as [E|_]; [exfalso; apply N; simpl; auto|lia].
      * apply X1; intros E; apply N; auto.
    + intros ->. pose proof (PO auth) as Q. rewrite N.eqb_refl, (proj2 (N.eqb_neq _ _) NA) in Q. unfold keeper_part in Q. lia.
  - exists (wadd128 (cfg_acc c) y4), (h_last y3). split; [exact S1|]. do 2 eexists. exact C1.
Qed.

Lemma resync_goes e ck w c vk v vauth vhr f t : env_ok e -> ready e ck w -> config_at e w ck c ->
  stake_of e w ck vk = Some (v_del v) -> dat (get w vk) = DVal v -> vauth = authority (v_del v) -> vauth <> ck ->
  vhr = e_holder e (e_vault e ck) -> f (v_total v) = Ok t -> t < U64 -> cap (N.max t (v_min v)) < U64 ->
  pending e w ck vk + e_rent e CONFIG_LEN <= lam (get w ck) ->
  exists w', resync_validator e w ck vhr (e_vault e ck) vk vauth f = Ok w' /\
    revalidated e w ck vhr (e_vault e ck) vk vauth f w' /\
    gone e ck vk vauth None [ck; vk; vauth] w w' /\
    exists d', dat (get w' vk) = DVal (VStake d' t (v_min v)) /\ authority d' = authority (v_del v) /\ vote d' = vote (v_del v).
Proof.
  intros OK RY C S D AU NA VH F TB CB P.
  destruct (harvest_goes e ck w c vk (v_del v) vauth vhr None OK RY C S AU NA ltac:(discriminate) VH P)
    as (w1 & R1 & H1 & G1 & a & h & D1 & a' & l' & C1). rewrite D in D1. cbn [upd_del] in D1.
  set (d1 := set_lasts (v_del v) h a) in *. set (c1 := set_cfg_last (set_cfg_acc c a') l') in *.
  assert (config_at e w1 ck c1) as CA1 by (split; [rewrite (go_own _ _ _ _ _ _ _ _ G1); apply C|auto]).
  assert (stake_of e w1 ck vk = Some d1) as S1.
  { apply stake_of_some in S as (SO & _ & B). apply stake_of_intro.
    - rewrite (go_own _ _ _ _ _ _ _ _ G1); auto.
    - rewrite D1. reflexivity.
    - rewrite D1. rewrite D in B. exact B. }
  destruct (ready_room _ _ _ _ _ _ (go_ready _ _ _ _ _ _ _ _ G1) CA1 S1) as [RM1 RM2].
  set (w2 := setd w1 vk (DVal (set_v_total (set_v_del v d1) t))).
  assert (vk <> ck) as NV by (intros ->; destruct C; congruence).
  pose proof (re_wf _ _ _ RY) as WF. pose proof (go_ready _ _ _ _ _ _ _ _ G1) as RY1. pose proof (re_wf _ _ _ RY1) as WF1.
  pose proof (wf_dat _ vk WF) as WV. rewrite D in WV. cbn in WV.
  pose proof (wf_dat _ vk WF1) as WV1. rewrite D1 in WV1. cbn in WV1.
  assert (dat (get w2 ck) = DConfig c1) as C2.
  { unfold w2. ws. destruct (N.eqb_spec vk ck); [congruence|auto]. }
  assert (dat (get w2 vk) = DVal (set_v_total (set_v_del v d1) t)) as D2 by (unfold w2; ws; now rewrite N.eqb_refl).
  destruct (sync_runs w2 ck vk t (v_min v) c1 d1) as [w' R2]; auto.
  { rewrite D2. reflexivity. }
  { lia. }
  assert (resync_validator e w ck vhr (e_vault e ck) vk vauth f = Ok w') as RV.
  { unfold resync_validator. rewrite R1, bind_Ok, D1. cbn [unpack_val]. rewrite bind_Ok.
    cbn [v_total set_v_del v_min]. rewrite F, bind_Ok. cbv zeta. exact R2. }
  exists w'. split; [auto|]. apply resync_validator_ok in RV. split; [auto|].
  apply sync_effective_ok in R2. pose proof (frozen_resync _ _ _ _ _ R2) as FR.
  assert (total_lamports w' = total_lamports w) as T.
  { rewrite (proj1 FR). unfold w2. rewrite total_setd. apply (go_tot _ _ _ _ _ _ _ _ G1). }
  destruct (revalidated_collects _ _ _ _ _ _ _ _ RV) as [CL PO]; auto using acc_wf.
  { now apply stake_of_some in S. } { now apply stake_of_some in S. }
  pose proof (settles_revalidated _ _ _ _ _ _ _ _ _ RV) as ST.
  pose proof (last_settles _ _ _ ST (acc_wf _ _ WF) T) as LS.
  assert (wf_world w2) as WF2 by (apply wf_setd; auto; cbn; tauto).
  assert (stake_of e w2 ck vk = Some d1) as S2.
  { apply stake_of_some in S1 as (SO & _ & B). apply stake_of_intro; [unfold w2; ws; auto|rewrite D2; reflexivity|].
    rewrite D2. rewrite D1 in B. exact B. }
  assert (ready e ck w2) as RY2.
  { eapply (ready_step e ck vk w1 w2 d1 d1); auto.
    - unfold w2. apply evolves_setd; rewrite D1; [reflexivity|discriminate].
    - unfold w2. apply (pstep_setd e w1 ck vk c1 _ d1 d1); try apply CA1; auto.
      apply stake_of_some in S1 as (_ & _ & B). rewrite D1 in B. exact B.
    - intros k NE. unfold w2. destruct (N.eq_dec k ck) as [->|].
      + rewrite (stake_of_config _ _ _ _ _ C2). symmetry. eapply stake_of_config; apply CA1.
      + apply stake_of_eq; ws; auto. intros _. destruct (N.eqb_spec vk k); congruence.
    - apply (re_le _ _ _ RY1 _ _ S1).
    - unfold w2. apply hframe_setd; [intros ?; discriminate|rewrite D1; intros ?; discriminate].
    - exists c1. split; [split; [unfold w2; ws; apply CA1|auto]|]. unfold w2. ws.
      rewrite (go_last _ _ _ _ _ _ _ _ G1 _ C1). lia.
    - unfold w2. apply total_setd. }
  pose proof R2 as R2'. destruct R2' as [c3 d3 l3 Hc3 Hd3 Hm3 He3 Hb3 Ho3 Hdat3 Hl3].
  rewrite C2 in Hc3. injection Hc3 as <-. rewrite D2 in Hd3. cbn in Hd3. injection Hd3 as <-.
  pose proof (Hdat3 vk) as DK. rewrite (N.eqb_sym ck vk), (proj2 (N.eqb_neq _ _) NV), N.eqb_refl, D2 in DK. cbn [upd_del] in DK.
  pose proof (Hdat3 ck) as DC. rewrite N.eqb_refl in DC.
  assert (forall k, own (get w' k) = own (get w k)) as OW.
  { intros k. rewrite Ho3. unfold w2. ws. apply (go_own _ _ _ _ _ _ _ _ G1). }
  split.
  - split; auto.
    + refine (ready_step e ck vk w2 w' _ _ OK RY2 (evolves_resync _ _ _ _ _ _ R2) (wf_resync _ _ _ _ _ WF2 R2) _ S2 _ _ _ _ _ _ _).
      * eapply pstep_resync; [|exact S2|exact R2]. unfold w2. ws. apply CA1.
      * apply stake_of_intro; [rewrite OW; now apply stake_of_some in S|rewrite DK; reflexivity|].
        rewrite DK. apply stake_of_some in S as (_ & _ & B). rewrite D in B. exact B.
      * intros k NE. destruct (N.eq_dec k ck) as [->|].
        -- rewrite (stake_of_config _ _ _ _ _ DC). symmetry. eapply stake_of_config; eauto.
        -- apply stake_of_eq; [apply Ho3|]. intros _. rewrite Hdat3. destruct (N.eqb_spec ck k); [congruence|].
           destruct (N.eqb_spec vk k); congruence.
      * cbn. lia.
      * cbn. lia.
      * eapply hframe_resync; eauto.
      * eexists. split; [split; [rewrite OW; apply C|exact DC]|]. rewrite (LS _ DC). lia.
      * exact (proj1 FR).
    + eapply touches_trans; [eapply touches_incl; [exact (go_touch _ _ _ _ _ _ _ _ G1)|apply incl_refl]|].
      apply touches_trans with w2; [refine (touches_incl _ _ _ _ (touches_setd _ _ _) _); intros x; simpl; tauto|].
      refine (touches_incl _ _ _ _ (touches_resync _ _ _ _ _ R2) _). intros x; simpl; tauto.
    + pose proof (PO ck) as Q. rewrite N.eqb_refl in Q. destruct (N.eqb_spec ck vauth); [congruence|]. lia.
    + intros _. pose proof (PO vauth) as Q. rewrite N.eqb_refl, (proj2 (N.eqb_neq _ _) NA) in Q. lia.
    + intros k N1 N2. rewrite Hdat3. destruct (N.eqb_spec ck k); [congruence|]. destruct (N.eqb_spec vk k); [congruence|].
      unfold w2. ws. destruct (N.eqb_spec vk k); [congruence|]. now apply (go_dat _ _ _ _ _ _ _ _ G1).
  - eexists. rewrite DK. split; [reflexivity|]. auto.
Qed.

Lemma sum_over_in f ks a : In a ks -> f a <= sum_over f ks.
Proof. induction ks as [|x ks IH]; simpl; [tauto|]. intros [->|I]; [lia|]. specialize (IH I). lia. Qed.
Lemma sum_over_in2 f ks a b : NoDup ks -> In a ks -> In b ks -> a <> b -> f a + f b <= sum_over f ks.
Proof.
  intros ND. induction ND as [|x ks NI ND IH]; simpl; [tauto|]. rewrite elem_of_list_In in NI.
  intros [->|A] [->|B] NE; try congruence.
  - pose proof (sum_over_in f _ _ B). lia.
  - pose proof (sum_over_in f _ _ A). lia.
  - specialize (IH A B NE). lia.
Qed.
Lemma sum_over_in3 f ks a b c : NoDup ks -> In a ks -> In b ks -> In c ks -> a <> b -> a <> c -> b <> c ->
  f a + f b + f c <= sum_over f ks.
Proof.
  intros ND. induction ND as [|x ks NI ND IH]; simpl; [tauto|]. rewrite elem_of_list_In in NI.
  intros [->|A] [->|B] [->|C] N1 N2 N3; try congruence.
  - pose proof (sum_over_in2 f _ _ _ ND B C N3). lia.
  - pose proof (sum_over_in2 f _ _ _ ND A C N2). lia.
  - pose proof (sum_over_in2 f _ _ _ ND A B N1). lia.
  - specialize (IH A B C N1 N2 N3). lia.
Qed.
Lemma val_here e w ck vt : env_ok e -> sane e w -> own (get w (e_val e vt ck)) = e_prog e ->
  exists v, dat (get w (e_val e vt ck)) = DVal v /\ vote (v_del v) = vt /\
    stake_of e w ck (e_val e vt ck) = Some (v_del v).
Proof.
  intros OK S O. assert (pda e (e_val e vt ck)) as P by (left; eauto).
  destruct (sane_kind _ _ S _ O) as [[b D]|[[c D]|[[v D]|[s D]]]].
  - destruct (sane_raw _ _ S _ _ O D) as [_ X]. destruct (X P) as [_ [ck' E]]. exfalso. now apply (ok_val_vault e OK) in E.
  - destruct (sane_cfg _ _ S _ _ (conj O D)) as [N _]. contradiction.
  - exists v. destruct (sane_val_belongs _ _ _ _ _ _ OK S O D eq_refl). auto.
  - destruct (sane_sol _ _ S _ _ (conj O D)) as (ck' & c & E & _). exfalso. now apply (ok_val_sol e OK) in E.
Qed.

Lemma limits_total e w ck k s : inv e w -> env_ok e -> sol_at e w k s -> k = e_sol e (s_native s) ck ->
  vote (s_del s) <> 0 -> exists v, val_at e w (e_val e (vote (s_del s)) ck) v /\ vote (v_del v) = vote (s_del s) /\
    s_lamports s <= v_total v.
Proof.
  intros I OK SA K V. destruct (i_totals _ _ I) as [T SK]. destruct (SK _ _ _ SA K) as [_ O]. specialize (O V).
  destruct (val_here _ _ _ _ OK (i_sane _ _ I) O) as (v & D & VV & _). exists v. split; [split; auto|]. split; [auto|].
  rewrite (T _ v ck (conj O D)) by (rewrite VV; auto). rewrite VV.
  unfold staker_lamports.
  pose proof (wsum_ge1 (lamports_in e ck (vote (s_del s))) (lamports_zero e ck (vote (s_del s))) w k) as G.
  destruct SA as [SO SD]. unfold lamports_in in G at 1. rewrite SO, N.eqb_refl, SD in G. rewrite K in G at 1.
  rewrite N.eqb_refl in G. rewrite N.eqb_refl in G. exact G.
Qed.

(** The last step of a synchronising harvest. *)
Lemma final_goes e ck w c sk s cv cs : env_ok e -> ready e ck w -> config_at e w ck c ->
  stake_of e w ck sk = Some (s_del s) -> dat (get w sk) = DSol s -> cs < U64 -> cap cs < U64 ->
  exists w', sync_effective (setd w sk (DSol (SStake (set_vote (s_del s) cv) cs (s_native s)))) ck sk cs 0 = Ok w' /\
    touches [ck; sk] w w' /\ total_lamports w' = total_lamports w.
Proof.
  intros OK RY C S D B K. assert (sk <> ck) as NE by (intros ->; destruct C; congruence).
  destruct (ready_room _ _ _ _ _ _ RY C S) as [R1 R2].
  set (w2 := setd w sk _).
  assert (dat (get w2 ck) = DConfig c) as C2.
  { unfold w2. ws. destruct (N.eqb_spec sk ck); [congruence|apply C]. }
  destruct (sync_runs w2 ck sk cs 0 c (set_vote (s_del s) cv)) as [w' R]; auto; rewrite ?N.max_0_r; auto.
  { unfold w2. ws. rewrite N.eqb_refl. reflexivity. }
  exists w'. split; [auto|]. apply sync_effective_ok in R. pose proof (frozen_resync _ _ _ _ _ R) as FR. split.
  - apply touches_trans with w2; [refine (touches_incl _ _ _ _ (touches_setd _ _ _) _); intros x; simpl; tauto|].
    exact (touches_resync _ _ _ _ _ R).
  - rewrite (proj1 FR). unfold w2. apply total_setd.
Qed.

Lemma harvest_sol_goes e cx a w s vw : env_ok e -> inv e w -> settled_chain e w (hs_config a) ->
  good_harvest_sol e cx a w s vw -> vw_effective vw < U64 ->
  exists w', run e cx (CHarvestSolStakerRewards a) w = Ok w'.
Proof.
  intros OK I [[h HH] TT] G VB. destruct G as [[c C] [SA SK] NAT VHR [VI CV] [AU NAU] [kp [KP NKP]] PRV CUR (ks & ND & KS & PAY) CAP WR].
  remember (hs_config a) as ck eqn:CK. remember (hs_stake a) as sk eqn:SKE.
  pose proof (ready_inv _ _ _ _ _ I C HH TT) as RY.
  destruct SA as [SO SD].
  assert (stake_of e w ck sk = Some (s_del s)) as S.
  { apply stake_of_intro; auto; rewrite SD; [reflexivity|]. simpl. now rewrite <- SK. }
  assert (sk <> ck) as NSC by (intros ->; destruct C; congruence).
  assert (forall v, e_val e v ck <> sk) as NVS by (intros v E; rewrite SK in E; now apply (ok_val_sol e OK) in E).
  assert (In sk ks) as ISK by (apply KS; left; auto).
  set (rs := negb (vw_effective vw =? s_lamports s) || negb (vw_vote vw =? vote (s_del s))).
  set (kpr := if rs then Some kp else None).
  pose proof (sum_over_in (pending e w ck) _ _ ISK) as PSK.
  destruct (harvest_goes e ck w c sk (s_del s) (hs_authority a) (hs_vhr a) kpr OK RY C S AU NAU) as
    (w1 & R1 & H1 & G1 & ac & ho & D1 & a' & l' & C1); auto.
  { unfold kpr. destruct rs; congruence. }
  { lia. }
  rewrite SD in D1. cbn [upd_del] in D1.
  assert (forall w', (let* w' := handler e cx (CHarvestSolStakerRewards a) w in Ok w') = Ok w' ->
    touches [ck; sk; hs_authority a; hs_prev a; hs_prev_auth a; hs_cur a; hs_cur_auth a; kp] w w' ->
    total_lamports w' = total_lamports w -> run e cx (CHarvestSolStakerRewards a) w = Ok w') as FIN.
  { intros w' R T TL. unfold run. destruct (handler _ _ _ _) as [w0|?|]; [|discriminate..]. injection R as ->.
    rewrite bind_Ok. rewrite (runtime_check_touches _ _ _ _ T TL); [reflexivity|].
    intros k IK. apply WR. simpl in IK. simpl.
    destruct IK as [<-|[<-|[<-|[<-|[<-|[<-|[<-|[<-|[]]]]]]]]]; [left; tauto..|right; auto]. }
  assert (forall w', (if negb rs then Ok w1 else
      let* s := unpack_sol (dat (get w1 sk)) in
      let* w := leave_previous e w1 a (e_vault e ck) s in
      let* '(w, cur_vote, cur_stake) := join_current e w a (e_vault e ck) (vw_vote vw) (vw_effective vw) in
      let* s := unpack_sol (dat (get w sk)) in
      let w := setd w sk (DSol (SStake (set_vote (s_del s) cur_vote) cur_stake (s_native s))) in
      sync_effective w ck sk cur_stake 0) = Ok w' ->
     (let* w' := handler e cx (CHarvestSolStakerRewards a) w in Ok w') = Ok w') as HAND.
  { intros w' R. unfold handler, harvest_sol_staker_rewards. unfold load_config, load_sol. rewrite <- CK, <- SKE.
    rewrite require_true by (apply N.eqb_eq; apply C). rewrite (proj2 C). cbn [unpack_config]. rewrite bind_Ok.
    rewrite require_true by now apply N.eqb_eq. rewrite SD. cbn [unpack_sol]. rewrite bind_Ok.
    rewrite require_true by now apply N.eqb_eq. rewrite bind_Ok.
    rewrite require_true by now apply N.eqb_eq. rewrite require_true by now apply N.eqb_eq. cbv zeta.
    rewrite require_true by now apply N.eqb_eq. rewrite require_true by now apply N.eqb_eq. rewrite CV, bind_Ok.
    fold rs. rewrite KP. replace (if rs then Ok (Some kp) else Ok None) with (Ok kpr) by (unfold kpr; destruct rs; auto).
    rewrite bind_Ok, R1, bind_Ok. cbv zeta in R. rewrite R. reflexivity. }
  destruct rs eqn:RS.
  2:{ exists w1. apply FIN; [apply HAND; reflexivity| |apply (go_tot _ _ _ _ _ _ _ _ G1)].
      refine (touches_incl _ _ _ _ (go_touch _ _ _ _ _ _ _ _ G1) _). unfold kpr. intros x. simpl. tauto. }
  cbn [negb] in HAND. unfold kpr in G1. cbn [opt_list] in G1.
  rewrite D1 in HAND. cbn [unpack_sol] in HAND. rewrite bind_Ok in HAND.
  set (s1 := set_s_del s (set_lasts (s_del s) ho ac)) in *.
  set (c1 := set_cfg_last (set_cfg_acc c a') l') in *.
  assert (config_at e w1 ck c1) as CA1 by (split; [rewrite (go_own _ _ _ _ _ _ _ _ G1); apply C|auto]).
  pose proof (go_ready _ _ _ _ _ _ _ _ G1) as RY1.
  assert (stake_of e w1 ck sk = Some (s_del s1)) as S1.
  { apply stake_of_intro; [rewrite (go_own _ _ _ _ _ _ _ _ G1); auto|rewrite D1; reflexivity|].
    rewrite D1. simpl. now rewrite <- SK. }
  assert (forall vt, own (get w (e_val e vt ck)) = e_prog e -> exists v, dat (get w (e_val e vt ck)) = DVal v /\
     vote (v_del v) = vt /\ val_at e w (e_val e vt ck) v /\ stake_of e w ck (e_val e vt ck) = Some (v_del v) /\
     e_val e vt ck <> ck) as VAL.
  { intros vt O. destruct (val_here _ _ _ _ OK (i_sane _ _ I) O) as (v & Dv & Vv & Sv). exists v.
    repeat split; auto. intros E. rewrite E in Dv. destruct C; congruence. }
  set (rent := e_rent e CONFIG_LEN) in *.
  (* leaving *)
  assert (exists w2, leave_previous e w1 a (e_vault e ck) s1 = Ok w2 /\ ready e ck w2 /\
     touches [ck; hs_prev a; hs_prev_auth a] w1 w2 /\ total_lamports w2 = total_lamports w1 /\
     (forall k, own (get w2 k) = own (get w k)) /\
     dat (get w2 sk) = DSol s1 /\
     (forall vt v, dat (get w (e_val e vt ck)) = DVal v -> own (get w (e_val e vt ck)) = e_prog e ->
        vw_vote vw = vt -> vt <> 0 ->
        exists v', dat (get w2 (e_val e vt ck)) = DVal v' /\ authority (v_del v') = authority (v_del v) /\
          vote (v_del v') = vote (v_del v) /\
          v_min v' = v_min v /\ v_total v' <= v_total v /\
          pending e w2 ck (e_val e vt ck) + rent <= lam (get w2 ck))) as (w2 & L2 & RY2 & TO2 & TL2 & OW2 & D2 & V2).
  { pose proof (go_paid _ _ _ _ _ _ _ _ G1) as PD1.
    destruct (N.eq_dec (vote (s_del s)) 0) as [V0|V0].
    - exists w1. destruct (i_totals _ _ I) as [_ SKs]. destruct (SKs _ _ _ (conj SO SD) SK) as [Z _]. specialize (Z V0).
      split; [|split; [auto|split; [apply touches_refl|split; [auto|split; [apply (go_own _ _ _ _ _ _ _ _ G1)|split; [auto|]]]]]].
      + unfold leave_previous. cbn. rewrite V0, Z. reflexivity.
      + intros vt v Dv Ov VW NZ. exists v. rewrite (go_dat _ _ _ _ _ _ _ _ G1); auto.
        2:{ intros E. rewrite E in Dv. destruct C; congruence. }
        split; [auto|]. split; [auto|]. split; [auto|]. split; [auto|]. split; [lia|].
        rewrite (collected_pending _ _ _ _ _ _ (go_coll _ _ _ _ _ _ _ _ G1)) by auto.
        assert (In (e_val e vt ck) ks) as IV by (apply KS; right; right; subst vt; auto).
        pose proof (sum_over_in2 (pending e w ck) ks _ _ ND ISK IV ltac:(auto)). lia.
    - destruct (PRV V0) as [PE PA]. rewrite PE in PA.
      destruct (limits_total _ _ _ _ _ I OK (conj SO SD) SK V0) as (v & [Ov Dv] & Vv & LE).
      destruct (VAL _ Ov) as (v0 & Dv0 & _ & VA & Sv & NVC). rewrite Dv in Dv0. injection Dv0 as <-.
      destruct (PA _ VA) as (PAU & PNA & PCAP). unfold cappable in PCAP.
      assert (In (e_val e (vote (s_del s)) ck) ks) as IV by (apply KS; right; left; auto).
      pose proof (wf_dat _ (e_val e (vote (s_del s)) ck) (i_wf _ _ I)) as WV. rewrite Dv in WV. cbn in WV.
      destruct (resync_goes e ck w1 c1 (e_val e (vote (s_del s)) ck) v (hs_prev_auth a) (hs_vhr a)
        (fun t => csub t (s_lamports s)) (v_total v - s_lamports s) OK RY1 CA1) as (w2 & R2 & _ & G2 & d' & D2 & A2 & E2); auto.
      { rewrite (co_oth _ _ _ _ _ (go_coll _ _ _ _ _ _ _ _ G1)); auto. }
      { rewrite (go_dat _ _ _ _ _ _ _ _ G1); auto. }
      { now apply csub_le. }
      { lia. }
      { pose proof (cap_mono (N.max (v_total v - s_lamports s) (v_min v)) (N.max (v_total v) (v_min v))). lia. }
      { rewrite (collected_pending _ _ _ _ _ _ (go_coll _ _ _ _ _ _ _ _ G1)) by auto.
        pose proof (sum_over_in2 (pending e w ck) ks _ _ ND ISK IV ltac:(auto)). unfold rent in PAY. lia. }
      exists w2.
      split; [|split; [apply (go_ready _ _ _ _ _ _ _ _ G2)|split; [rewrite PE; apply (go_touch _ _ _ _ _ _ _ _ G2)|
        split; [apply (go_tot _ _ _ _ _ _ _ _ G2)|split; [|split]]]]].
      + unfold leave_previous. cbn [s1 s_del set_s_del vote set_lasts s_lamports]. rewrite (proj2 (N.eqb_neq _ _) V0). cbn [negb].
        rewrite <- CK, PE. rewrite require_true by (rewrite (go_own _ _ _ _ _ _ _ _ G1); now apply N.eqb_eq).
        rewrite require_true by now apply N.eqb_eq. rewrite (go_dat _ _ _ _ _ _ _ _ G1), Dv by auto. cbn [unpack_val].
        rewrite bind_Ok. exact R2.
      + intros k. rewrite (go_own _ _ _ _ _ _ _ _ G2). apply (go_own _ _ _ _ _ _ _ _ G1).
      + rewrite (go_dat _ _ _ _ _ _ _ _ G2); auto.
      + intros vt v' Dv' Ov' VW NZ. pose proof (go_paid _ _ _ _ _ _ _ _ G2) as PD2.
        destruct (N.eq_dec vt (vote (s_del s))) as [->|NV].
        * rewrite Dv in Dv'. injection Dv' as <-. eexists. split; [exact D2|]. cbn.
          split; [auto|]. split; [auto|]. split; [auto|]. split; [lia|].
          rewrite (collected_zero _ _ _ _ _ (go_coll _ _ _ _ _ _ _ _ G2)).
          rewrite (collected_pending _ _ _ _ _ _ (go_coll _ _ _ _ _ _ _ _ G1)) in PD2 by auto.
          pose proof (sum_over_in2 (pending e w ck) ks _ _ ND ISK IV ltac:(auto)). lia.
        * assert (e_val e vt ck <> e_val e (vote (s_del s)) ck) as NEV.
          { intros E. rewrite E in Dv'. rewrite Dv in Dv'. injection Dv' as <-. apply (ok_val_inj e OK) in E. now destruct E. }
          assert (In (e_val e vt ck) ks) as IV' by (apply KS; right; right; subst vt; auto).
          assert (e_val e vt ck <> ck) as NVC'. { intros E. rewrite E in Dv'. destruct C; congruence. }
          exists v'. rewrite (go_dat _ _ _ _ _ _ _ _ G2), (go_dat _ _ _ _ _ _ _ _ G1) by auto.
          split; [auto|]. split; [auto|]. split; [auto|]. split; [auto|]. split; [lia|].
          rewrite (collected_pending _ _ _ _ _ _ (go_coll _ _ _ _ _ _ _ _ G2)) by auto.
          rewrite (collected_pending _ _ _ _ _ _ (go_coll _ _ _ _ _ _ _ _ G1)) by auto.
          rewrite (collected_pending _ _ _ _ _ _ (go_coll _ _ _ _ _ _ _ _ G1)) in PD2 by auto.
          pose proof (sum_over_in3 (pending e w ck) ks _ _ _ ND ISK IV IV' ltac:(auto) ltac:(auto) ltac:(auto)). lia. }
  rewrite L2, bind_Ok in HAND.
  destruct (ready_config _ _ _ RY2) as [c2 CA2].
  (* joining *)
  assert (exists w3 cv cs, join_current e w2 a (e_vault e ck) (vw_vote vw) (vw_effective vw) = Ok (w3, cv, cs) /\ ready e ck w3 /\
     touches [ck; hs_cur a; hs_cur_auth a] w2 w3 /\ total_lamports w3 = total_lamports w2 /\
     (forall k, own (get w3 k) = own (get w k)) /\ dat (get w3 sk) = DSol s1 /\ cs <= vw_effective vw)
    as (w3 & cv & cs & J3 & RY3 & TO3 & TL3 & OW3 & D3 & CSL).
  { unfold join_current. rewrite <- CK. destruct (N.eq_dec (vw_vote vw) 0) as [Z|NZ].
    - rewrite Z. cbn. exists w2, 0, (vw_effective vw). split; [auto|]. split; [auto|]. split; [apply touches_refl|]. auto 6 using N.le_refl.
    - rewrite (proj2 (N.eqb_neq _ _) NZ). cbn [negb]. destruct (CUR NZ) as [CE CA]. rewrite require_true by now apply N.eqb_eq.
      rewrite OW2. destruct (N.eqb_spec (own (get w (hs_cur a))) (e_prog e)) as [O|O].
      + rewrite CE in *. destruct (VAL _ O) as (v & Dv & Vv & VA & Sv & NVC).
        destruct (CA _ VA) as (CAU & CNA & CSUM & CCAP). unfold cappable in CCAP.
        destruct (V2 _ _ Dv O eq_refl NZ) as (v' & Dv' & A' & VV' & M' & T' & P').
        destruct (resync_goes e ck w2 c2 (e_val e (vw_vote vw) ck) v' (hs_cur_auth a) (hs_vhr a)
          (fun t => add64 t (vw_effective vw)) (v_total v' + vw_effective vw) OK RY2 CA2) as (w3 & R3 & _ & G3 & _); auto.
        { apply stake_of_intro; [rewrite OW2; auto|rewrite Dv'; reflexivity|]. rewrite Dv'. simpl. now rewrite VV', Vv. }
        { congruence. }
        { apply add64_lt. change U64 with (2 ^ 64). lia. }
        { change U64 with (2 ^ 64). lia. }
        { rewrite M'. pose proof (cap_mono (N.max (v_total v' + vw_effective vw) (v_min v)) (N.max (v_total v + vw_effective vw) (v_min v))).
          change U64 with (2 ^ 64). lia. }
        rewrite Dv'. cbn [unpack_val]. rewrite bind_Ok, R3, bind_Ok. exists w3, (vw_vote vw), (vw_effective vw).
        split; [auto|]. split; [apply (go_ready _ _ _ _ _ _ _ _ G3)|]. split; [apply (go_touch _ _ _ _ _ _ _ _ G3)|].
        split; [apply (go_tot _ _ _ _ _ _ _ _ G3)|]. split; [|split; [|lia]].
        * intros k. rewrite (go_own _ _ _ _ _ _ _ _ G3). auto.
        * rewrite (go_dat _ _ _ _ _ _ _ _ G3); auto.
      + exists w2, 0, 0. split; [auto|]. split; [auto|]. split; [apply touches_refl|].
        split; [auto|]. split; [auto|]. split; [auto|]. lia. }
  rewrite J3, bind_Ok in HAND. rewrite D3 in HAND. cbn [unpack_sol] in HAND. rewrite bind_Ok in HAND.
  destruct (ready_config _ _ _ RY3) as [c3 CA3].
  destruct (final_goes e ck w3 c3 sk s1 cv cs OK RY3 CA3) as (w4 & R4 & TO4 & TL4); auto.
  { apply stake_of_intro; [rewrite OW3; auto|rewrite D3; reflexivity|]. rewrite D3. simpl. now rewrite <- SK. }
  { lia. }
  { pose proof (cap_mono cs (vw_effective vw) CSL). change U64 with (2 ^ 64). lia. }
  exists w4. apply FIN.
  - apply HAND. cbv zeta. exact R4.
  - assert (forall l w w', touches l w w' -> incl l [ck; sk; hs_authority a; hs_prev a; hs_prev_auth a; hs_cur a; hs_cur_auth a; kp] ->
      touches [ck; sk; hs_authority a; hs_prev a; hs_prev_auth a; hs_cur a; hs_cur_auth a; kp] w w') as TI by (intros; eapply touches_incl; eauto).
    apply touches_trans with w1; [refine (TI _ _ _ (go_touch _ _ _ _ _ _ _ _ G1) _); intros x; simpl; tauto|].
    apply touches_trans with w2; [refine (TI _ _ _ TO2 _); intros x; simpl; tauto|].
    apply touches_trans with w3; [refine (TI _ _ _ TO3 _); intros x; simpl; tauto|].
    refine (TI _ _ _ TO4 _); intros x; simpl; tauto.
  - rewrite TL4, TL3, TL2. apply (go_tot _ _ _ _ _ _ _ _ G1).
Qed.
