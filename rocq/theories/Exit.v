(** One unstake leaves everything as needed for the next one. *)
From Verif Require Import Base Types Layout Instr Math External Processor Runtime History Spec SpecReward SpecLive
  WorldLemmas Effects Handlers Evolve Sane Wf Totals Arith Nets Caps Stakers Deposits Inv Life Gov Flow Rewards
  Progress Live LiveTokens SpecExit.

Lemma authorised_owner sig t auth n t' : token_authorise sig t auth n = Ok t' -> t_delegate t <> Some auth -> t' = t.
Proof.
  unfold token_authorise. intros H N.
  assert ((let* _ := require ((auth =? t_owner t) && sig auth) TokenError in Ok t) = Ok t' -> t' = t) as O.
  { intros K. stepg K G. now injection K. }
  destruct (t_delegate t) as [x|]; auto. destruct (N.eqb_spec x auth); [congruence|auto].
Qed.
Lemma liquid_amount e w w' k m o t x : liquid e w k m o t -> own (get w' k) = own (get w k) ->
  dat (get w' k) = DToken (set_t_amount t x) -> liquid e w' k m o (set_t_amount t x).
Proof. intros (A & B & C & D & E & F) O H. repeat split; auto; congruence. Qed.

(** What an unstake leaves behind when the pool's accumulator has not moved. *)
Record left_ready (e : env) (a : unstake_accts) (n : N) (now : N) (w w' : world) (c : config) (d : delegation) : Prop := {
  lr_own : forall k, own (get w' k) = own (get w k);
  lr_config : exists c', config_at e w' (un_config a) c' /\ cfg_vault c' = cfg_vault c /\ cfg_bps c' = cfg_bps c /\
    cfg_cooldown c' = cfg_cooldown c;
  lr_stake : exists d', stake_of e w' (un_config a) (un_stake a) = Some d' /\ staked d' = staked d - n /\
    authority d' = authority d /\ cooldown d' = sat_add64 now (cfg_cooldown c);
  lr_cap : cap_fits (dat (get w (un_stake a))) -> cap_fits (dat (get w' (un_stake a)));
  lr_mint : dat (get w' (un_mint a)) = dat (get w (un_mint a));
  lr_vault : forall t, liquid e w (un_vault a) (un_mint a) (un_vault_pda a) t ->
    exists t', liquid e w' (un_vault a) (un_mint a) (un_vault_pda a) t' /\ t_amount t' = t_amount t;
  lr_ptok : forall t, liquid e w (un_ptok a) (un_mint a) (un_pool a) t ->
    exists t', liquid e w' (un_ptok a) (un_mint a) (un_pool a) t' /\ t_amount t' = t_amount t - n;
  lr_dest : forall o t, liquid e w (un_dest a) (un_mint a) o t ->
    exists t', liquid e w' (un_dest a) (un_mint a) o t' /\ t_amount t' = t_amount t + n;
  lr_holder : exists h, dat (get w' (e_holder e (e_vault e (un_config a)))) = DHolder h /\ h_last h = holder_acc e w (un_config a) /\
    h_deposited h = deposit e w (un_config a) - n;
  lr_pending : pending e w' (un_config a) (un_stake a) = 0;
  lr_rent : e_rent e CONFIG_LEN <= lam (get w' (un_config a));
  lr_dat : forall k, k <> un_config a -> k <> un_stake a -> k <> un_vhr a -> k <> un_ptok a -> k <> un_vault a -> k <> un_dest a ->
    dat (get w' k) = dat (get w k);
}.

Lemma unstake_leaves e cx a n w w' c d : env_ok e -> inv e w -> good_unstake e cx a n w c d ->
  c_pool_acc cx mod U128 = holder_acc e w (un_config a) -> run e cx (CUnstakeTokens a n) w = Ok w' ->
  left_ready e a n (c_now cx) w w' c d.
Proof.
  intros OK I G AC RUN. apply run_ok in RUN as (_ & D & _). inversion D as [| | | | | | | | | | |? ? U| | | |]; subst. clear D.
  destruct G as [C S (AU & SG & NAC & NAI) (VE & PDA) (VHR & VHO) (PE & PO) (MO & mm & MD) (TP & TPO)
    (vt & LV & RV) (pt & LP & DP) (dt & o & LD & RD & ND1 & ND2) (RW1 & RW2) (N0 & NM & CD) CAPS PAY WR].
  destruct U as [c0 d0 c1 d1 m w1 w2 w3 w4 Hco Hc0 Hso Hbel Hd0 Hsig Hau Hvp Hva Hvd H1 Hc Hd Hcd Ham Hmax Hle H2 H3 Hu H4 H5].
  rewrite (proj2 C) in Hc0. injection Hc0 as <-.
  pose proof S as S'. apply stake_of_some in S' as (SO & SD & SB). rewrite SD in Hd0. injection Hd0 as <-.
  set (ck := un_config a) in *. set (sk := un_stake a) in *.
  assert (sk <> ck) as NSC. { intros E. rewrite E, (proj2 C) in SD. discriminate. }
  destruct H1 as [cc dd h rpt sr hr Hc' Hd' Ha Hl Hr Hsr Hv Hh Hhr Hlam Hrent Hkb Hkk Ho1 Hdat1 Hlams1].
  rewrite (proj2 C) in Hc'. injection Hc' as <-. rewrite SD in Hd'. injection Hd' as <-.
  assert (forall k, In k (un_pool a :: un_ptok a :: un_vhr a :: un_vault a :: un_mint a :: un_vault_pda a :: un_tokprog a ::
    [un_vault a; un_mint a; un_dest a; un_vault_pda a]) -> k <> ck /\ k <> sk) as NIN.
  { intros k IK. specialize (Hu k IK). simpl in Hu. split; intros ->; tauto. }
  set (ac := wadd128 (cfg_acc c) rpt) in *.
  assert (d1 = set_lasts d (h_last h) ac) as ->.
  { rewrite Hdat1, (proj2 (N.eqb_neq ck sk)), N.eqb_refl, (del_of_upd' _ _ _ SD) in Hd by auto. now injection Hd. }
  assert (c1 = set_cfg_last (set_cfg_acc c ac) (lam (get w ck) - (sr + hr))) as ->.
  { rewrite Hdat1, N.eqb_refl in Hc. now injection Hc. }
  cbn [staked set_lasts cfg_cooldown set_cfg_last set_cfg_acc] in *.
  set (dn := set_cooldown (set_staked (set_lasts d (h_last h) ac) (staked d - n)) (sat_add64 (c_now cx) (cfg_cooldown c))) in *.
  destruct H3 as [c3 d3 lim Hc3 Hd3 Hm3 He3 Hb3 Ho3 Hdat3 Hlams3].
  assert (c3 = set_cfg_last (set_cfg_acc c ac) (lam (get w ck) - (sr + hr))) as ->.
  { rewrite H2 in Hc3. unfold put_del in Hc3. wsi Hc3. rewrite (proj2 (N.eqb_neq sk ck)) in Hc3 by auto. rewrite Hc in Hc3. now injection Hc3. }
  assert (del_of (dat (get w1 sk)) = Ok (set_lasts d (h_last h) ac)) as SD1 by (rewrite Hd; reflexivity).
  assert (d3 = dn) as ->.
  { rewrite H2 in Hd3. unfold put_del in Hd3. wsi Hd3. rewrite N.eqb_refl, (del_of_upd' _ _ _ SD1) in Hd3. now injection Hd3. }
  cbn [effective staked set_cooldown set_staked set_lasts cfg_effective set_cfg_last set_cfg_acc dn] in *.
  (* the world before the calls *)
  assert (forall k, own (get w3 k) = own (get w k)) as O3.
  { intros k. rewrite Ho3, H2. unfold put_del. ws. apply Ho1. }
  assert (forall k, k <> ck -> k <> sk -> dat (get w3 k) = dat (get w k)) as DA3.
  { intros k N1 N2. rewrite Hdat3, H2. unfold put_del. ws.
    rewrite (proj2 (N.eqb_neq ck k)), (proj2 (N.eqb_neq sk k)) by auto.
    rewrite Hdat1, (proj2 (N.eqb_neq ck k)), (proj2 (N.eqb_neq sk k)) by auto. reflexivity. }
  assert (dat (get w3 sk) = upd_del (dat (get w sk)) (set_effective dn (N.min (staked d - n) lim))) as DS3.
  { rewrite Hdat3, N.eqb_refl, (proj2 (N.eqb_neq ck sk)) by auto. rewrite H2. unfold put_del. ws. rewrite N.eqb_refl.
    rewrite Hdat1, N.eqb_refl, (proj2 (N.eqb_neq ck sk)) by auto. now rewrite !upd_upd. }
  assert (lam (get w3 ck) = lam (get w ck) - (sr + hr)) as L3.
  { rewrite Hlams3, H2. unfold put_del. ws. rewrite Hlams1. unfold paid_lam.
    rewrite (proj2 (N.eqb_neq (un_authority a) ck)), N.eqb_refl by auto. reflexivity. }
  (* the calls *)
  destruct (NIN (un_vhr a)) as [X1 X2]; [clear; simpl; tauto|]. destruct (NIN (un_ptok a)) as [X3 X4]; [clear; simpl; tauto|].
  destruct (NIN (un_vault a)) as [X5 X6]; [clear; simpl; tauto|]. destruct (NIN (un_dest a)) as [X7 X8]; [clear; simpl; tauto|].
  destruct (NIN (un_mint a)) as [X9 X10]; [clear; simpl; tauto|].
  destruct H4 as [h4 r0 r last w5 w6 Hp4 Hpo4 Hsig4 Hv4 Hvo4 Hh4 _ _ Ham4 Hr04 Hcase4 Hw1 Hw2 Ho4 Hdat4 Hl4 Hlb4 Hlp4].
  assert (h4 = h) as ->.
  { rewrite DA3 in Hh4 by (assumption || (apply not_eq_sym; assumption)). congruence. }
  assert (deposit e w ck = h_deposited h /\ holder_acc e w ck = h_last h) as [DE HA].
  { unfold deposit, holder_acc. rewrite <- Hv, Hh. auto. }
  assert (withdraw_amount h n = n) as WA.
  { unfold withdraw_amount. destruct (N.eqb_spec n (U64 - 1)) as [E|]; [|auto].
    pose proof (i_backed _ _ I ck) as B. pose proof (sum_of_ge e w ck staked sk d S). rewrite DE in B.
    pose proof (wf_dat _ (un_vhr a) (i_wf _ _ I)) as W. rewrite Hh in W. simpl in W. destruct W as [_ W]. clear - W B H Ham E. lia. }
  rewrite WA in *.
  assert (r = 0 /\ last = h_last h) as [-> ->].
  { rewrite AC, HA in Hr04, Hcase4. unfold pool_reward in Hr04. rewrite since_wsub, since_same in Hr04. simpl in Hr04. injection Hr04 as <-.
    destruct Hcase4 as [[-> ->]|[-> ->]]; auto. }
  destruct Hw2 as [s6 d6 s6' Hs6 Hso6 Hd6 Hdo6 _ _ _ Ham6 Hau6 Hov6 Hl6 Ho6 Hdat6].
  destruct H5 as [s7 d7 s7' Hs7 Hso7 Hd7 Hdo7 _ _ _ Ham7 Hau7 Hov7 Hl7 Ho7 Hdat7].
  destruct LV as (LV1 & LV2 & LV3 & LV4 & LV5 & LV6). destruct LP as (LP1 & LP2 & LP3 & LP4 & LP5 & LP6).
  destruct LD as (LD1 & LD2 & LD3 & LD4 & LD5 & LD6).
  assert (un_vault a <> un_ptok a) as NVP.
  { intros E. rewrite E, LP2 in LV2. injection LV2 as <-. rewrite LP4, PDA, PE in LV4.
    eapply (ok_pool_pda e OK). right. right. left. eexists. exact LV4. }
  assert (un_vhr a <> un_ptok a /\ un_vhr a <> un_vault a /\ un_vhr a <> un_dest a /\ un_vhr a <> un_mint a) as (V1 & V2 & V3 & V4).
  { repeat split; intros E; rewrite E in Hh; congruence. }
  assert (un_mint a <> un_ptok a /\ un_mint a <> un_vault a /\ un_mint a <> un_dest a) as (M1 & M2 & M3).
  { repeat split; intros E; rewrite E in MD; congruence. }
  assert (forall k, own (get w' k) = own (get w k)) as OW.
  { intros k. rewrite Ho7, Ho4, Ho6, Hw1. ws. apply O3. }
  assert (forall k, k <> ck -> k <> sk -> k <> un_vhr a -> k <> un_ptok a -> k <> un_vault a -> k <> un_dest a ->
    dat (get w' k) = dat (get w k)) as OT.
  { intros k N1 N2 N3 N4 N5 N6. rewrite Hdat7, Hdat4, Hdat6, Hw1. ws. keys; try congruence. now apply DA3. }
  assert (s6 = pt) as ->.
  { rewrite Hw1 in Hs6. wsi Hs6. rewrite (proj2 (N.eqb_neq (un_vhr a) (un_ptok a))), DA3 in Hs6 by (assumption || (apply not_eq_sym; assumption)). congruence. }
  assert (d6 = vt) as ->.
  { rewrite Hw1 in Hd6. wsi Hd6. rewrite (proj2 (N.eqb_neq (un_vhr a) (un_vault a))), DA3 in Hd6 by (assumption || (apply not_eq_sym; assumption)). congruence. }
  apply authorised_owner in Hau6; [subst s6'|auto].
  assert (s7 = set_t_amount vt (t_amount vt + n)) as ->.
  { rewrite Hdat4, Hdat6 in Hs7. rewrite (proj2 (N.eqb_neq (un_ptok a) (un_vault a))), N.eqb_refl in Hs7 by auto. now injection Hs7. }
  apply authorised_owner in Hau7; [subst s7'|simpl; auto].
  assert (d7 = dt) as ->.
  { rewrite Hdat4, Hdat6, Hw1 in Hd7. wsi Hd7.
    rewrite (proj2 (N.eqb_neq (un_ptok a) (un_vault a))), (proj2 (N.eqb_neq (un_ptok a) (un_dest a))),
      (proj2 (N.eqb_neq (un_vault a) (un_dest a))), (proj2 (N.eqb_neq (un_vhr a) (un_dest a))), DA3 in Hd7 by (assumption || (apply not_eq_sym; assumption)).
    congruence. }
  assert (forall k, lam (get w' k) = lam (get w3 k)) as LW.
  { intros k. rewrite Hl7, Hl4. reflexivity. }
  assert (dat (get w' ck) = dat (get w3 ck) /\ dat (get w' sk) = dat (get w3 sk)) as [DC DS].
  { split; rewrite Hdat7, Hdat4, Hdat6, Hw1; ws; keys; congruence. }
  set (c' := set_cfg_effective (set_cfg_last (set_cfg_acc c ac) (lam (get w ck) - (sr + hr)))
               (cfg_effective c - effective d + (staked d - n) `min` lim)) in *.
  set (d' := set_effective dn ((staked d - n) `min` lim)) in *.
  assert (config_at e w' ck c') as C'.
  { split; [rewrite OW; apply C|]. rewrite DC, Hdat3, N.eqb_refl. reflexivity. }
  assert (stake_of e w' ck sk = Some d') as S2.
  { apply stake_of_intro; [rewrite OW; auto| |]; rewrite DS, DS3.
    - eapply del_of_upd'; eauto.
    - refine (same_id_belongs _ _ _ _ _ _ SB). apply (same_id_upd _ _ _ SD); reflexivity. }
  assert (dat (get w' (un_vhr a)) = DHolder (Hold (h_last h) (h_deposited h - n))) as H'.
  { rewrite Hdat7, Hdat4, Hdat6, Hw1. ws. keys; congruence. }
  constructor; auto.
  - exists c'. repeat split; auto; apply C'.
  - exists d'. split; [exact S2|]. repeat split; reflexivity.
  - fold sk. rewrite DS, DS3. intros [A B]. destruct (dat (get w sk)) as [| |v|s| | | |] eqn:E; try discriminate; simpl; split; intros q Q;
      try discriminate; injection Q as <-; [apply (A _ eq_refl)|apply (B _ eq_refl)].
  - intros t LT. assert (t = vt) as -> by (destruct LT as (_ & T & _); congruence).
    assert (dat (get w' (un_vault a)) = DToken (set_t_amount vt (t_amount vt))) as E.
    { rewrite Hdat7. rewrite (proj2 (N.eqb_neq (un_vault a) (un_dest a))), N.eqb_refl by auto. f_equal.
      unfold set_t_amount; cbn [t_amount t_mint t_owner t_delegate t_frozen]. f_equal. clear. lia. }
    exists (set_t_amount vt (t_amount vt)). split; [eapply liquid_amount; eauto|reflexivity].
  - intros t LT. assert (t = pt) as -> by (destruct LT as (_ & T & _); congruence).
    assert (dat (get w' (un_ptok a)) = DToken (set_t_amount pt (t_amount pt - n))) as E.
    { rewrite Hdat7, Hdat4, Hdat6. keys; congruence. }
    exists (set_t_amount pt (t_amount pt - n)). split; [eapply liquid_amount; eauto|reflexivity].
  - intros o' t LT. assert (t = dt) as -> by (destruct LT as (_ & T & _); congruence).
    assert (dat (get w' (un_dest a)) = DToken (set_t_amount dt (t_amount dt + n))) as E.
    { rewrite Hdat7. keys; congruence. }
    exists (set_t_amount dt (t_amount dt + n)). split; [eapply liquid_amount; eauto|reflexivity].
  - exists (Hold (h_last h) (h_deposited h - n)). fold ck. rewrite <- Hv, H'. rewrite DE, HA. auto.
  - unfold pending. fold ck sk. rewrite S2, (proj2 C').
    pose proof (wf_dat _ ck (i_wf _ _ I)) as W. rewrite (proj2 C) in W. simpl in W.
    assert (cfg_acc c' < U128) as AB by (unfold c'; simpl; unfold ac, wadd128; apply N.mod_lt; lia).
    unfold stake_claim, holder_claim. rewrite (acc_now_seen _ _ AB); [|rewrite LW, L3; unfold c'; simpl; lia].
    unfold holder_acc. rewrite <- Hv, H'. unfold c', d', dn. cbn. rewrite !since_same. reflexivity.
  - fold ck. rewrite LW, L3. exact Hrent.
Qed.
