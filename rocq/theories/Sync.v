(** The conditions of [SpecSync.v] are necessary and sufficient. *)
From Verif Require Import Base Types Layout Instr Math External Processor Runtime History Spec SpecReward SpecLive SpecNeeds SpecSync
  WorldLemmas Effects Handlers Evolve Sane Wf Totals Arith Nets Caps Stakers Deposits Inv Life Rewards Collect Pays Progress Solvency
  Live Needs.

(** ** Sufficient *)
Lemma harvest_sol_can e cx a w s vw : env_ok e -> inv e w -> total_lamports w < U64 -> sol_at e w (hs_stake a) s ->
  c_view cx = Some vw -> vw_effective vw < U64 -> can_harvest_sol e w a s vw ->
  (forall k, sync_pays e w a s vw k -> k <> hs_config a) -> (forall k, sync_writes e w a s vw k -> writable cx k = true) ->
  exists w', run e cx (CHarvestSolStakerRewards a) w = Ok w'.
Proof.
  intros OK I TT SA CV VB G PAYS WR. destruct G as [[c C] (S & AU & VHR & [h HH] & PAY0) NAT VI DO].
  assert (hs_stake a = e_sol e (s_native s) (hs_config a)) as SK.
  { apply stake_of_some in S as (_ & _ & B). rewrite (proj2 SA) in B. exact B. }
  assert (hs_authority a <> hs_config a) as NAU by (apply PAYS; left; auto).
  set (rs := negb (vw_effective vw =? s_lamports s) || negb (vw_vote vw =? vote (s_del s))).
  assert (rs = true <-> changed s vw) as RSC.
  { unfold rs, changed. rewrite orb_true_iff, !negb_true_iff, !N.eqb_neq. tauto. }
  remember (hs_config a) as ck eqn:CK. remember (hs_stake a) as sk eqn:SKE.
  rewrite VHR in HH. pose proof (ready_inv _ _ _ _ _ I C HH TT) as RY.
  destruct SA as [SO SD].
  assert (sk <> ck) as NSC by (intros ->; destruct C; congruence).
  assert (forall v, e_val e v ck <> sk) as NVS by (intros v E; rewrite SK in E; now apply (ok_val_sol e OK) in E).
  set (kpr := if rs then hs_keeper a else None).
  destruct (harvest_goes e ck w c sk (s_del s) (hs_authority a) (hs_vhr a) kpr OK RY C S AU NAU) as
    (w1 & R1 & H1 & G1 & ac & ho & D1 & a' & l' & C1); auto.
  { unfold kpr. destruct rs; [|congruence]. intros K. apply (PAYS ck); auto. right. split; [now apply RSC|auto]. }
  rewrite SD in D1. cbn [upd_del] in D1.
  assert (forall l w', (let* w' := handler e cx (CHarvestSolStakerRewards a) w in Ok w') = Ok w' ->
    touches l w w' -> (forall k, In k l -> sync_writes e w a s vw k) ->
    total_lamports w' = total_lamports w -> run e cx (CHarvestSolStakerRewards a) w = Ok w') as FIN.
  { intros l w' R T IL TL. unfold run. destruct (handler _ _ _ _) as [w0|?|]; [|discriminate..]. injection R as ->.
    rewrite bind_Ok. rewrite (runtime_check_touches _ _ _ _ T TL); [reflexivity|]. auto. }
  assert (forall k, In k [ck; sk; hs_authority a] -> sync_writes e w a s vw k) as WR1 by (intros k K; left; rewrite <- CK, <- SKE; auto).
  assert (forall k, hs_keeper a = Some k -> rs = true -> sync_writes e w a s vw k) as WRK by (intros k K E; right; split; [now apply RSC|auto]).
  assert (forall w', (if negb rs then Ok w1 else
      let* s := unpack_sol (dat (get w1 sk)) in
      let* w := leave_previous e w1 a (e_vault e ck) s in
      let* '(w, cur_vote, cur_stake) := join_current e w a (e_vault e ck) (vw_vote vw) (vw_effective vw) in
      let* s := unpack_sol (dat (get w sk)) in
      let w := setd w sk (DSol (SStake (set_vote (s_del s) cur_vote) cur_stake (s_native s))) in
      sync_effective w ck sk cur_stake 0) = Ok w' ->
     (let* w' := handler e cx (CHarvestSolStakerRewards a) w in Ok w') = Ok w') as HAND.
  { intros w' R. unfold handler, harvest_sol_staker_rewards. unfold load_config, load_sol. rewrite <- CK, <- SKE.
    rewrite require_true by (apply N.eqb_eq; apply C). rewrite (proj2 C). cbn [unpack_config]. rewrite bind_Ok.
    rewrite require_true by now apply N.eqb_eq. rewrite SD. cbn [unpack_sol]. rewrite bind_Ok.
    rewrite require_true by now apply N.eqb_eq. rewrite bind_Ok.
    rewrite require_true by now apply N.eqb_eq. rewrite require_true by now apply N.eqb_eq. cbv zeta.
    rewrite require_true by now apply N.eqb_eq. rewrite require_true by now apply N.eqb_eq. rewrite CV, bind_Ok.
    fold rs. replace (if rs then match hs_keeper a with Some k => Ok (Some k) | None => Err NotEnoughAccountKeys end else Ok None) with (Ok kpr : result (option pubkey)).
    2:{ unfold kpr. destruct rs eqn:RS; [|auto]. destruct (cy_keeper _ _ _ _ _ (DO (proj1 RSC eq_refl))) as [kp ->]. auto. }
    rewrite bind_Ok, R1, bind_Ok. cbv zeta in R. rewrite R. reflexivity. }
  destruct rs eqn:RS.
  2:{ exists w1. eapply FIN; [apply HAND; reflexivity|exact (go_touch _ _ _ _ _ _ _ _ G1)| |apply (go_tot _ _ _ _ _ _ _ _ G1)].
      unfold kpr. intros x. simpl. intros X. apply WR1. simpl. tauto. }
  destruct (DO (proj1 RSC eq_refl)) as [[kp KP] PRV CUE CUR CAP (ks & ND & KS & PAY)]. rewrite <- CK in PRV, CUE, PAY, KS.
  rewrite <- SKE in KS.
  assert (In sk ks) as ISK by (apply KS; left; auto).
  pose proof (sum_over_in (pending e w ck) _ _ ISK) as PSK.
  unfold kpr in G1. rewrite KP in G1.
  cbn [negb] in HAND. cbn [opt_list] in G1.
  rewrite D1 in HAND. cbn [unpack_sol] in HAND. rewrite bind_Ok in HAND.
  set (s1 := set_s_del s (set_lasts (s_del s) ho ac)) in *.
  set (c1 := set_cfg_last (set_cfg_acc c a') l') in *.
  assert (config_at e w1 ck c1) as CA1 by (split; [rewrite (go_own _ _ _ _ _ _ _ _ G1); apply C|auto]).
  pose proof (go_ready _ _ _ _ _ _ _ _ G1) as RY1.
  assert (stake_of e w1 ck sk = Some (s_del s1)) as S1.
  { apply stake_of_intro; [rewrite (go_own _ _ _ _ _ _ _ _ G1); auto|rewrite D1; reflexivity|].
    rewrite D1. simpl. now rewrite <- SK. }
  assert (forall vt, own (get w (e_val e vt ck)) = e_prog e -> exists v, dat (get w (e_val e vt ck)) = DVal v /\
     vote (v_del v) = vt /\ val_at e w (e_val e vt ck) v /\ stake_of e w ck (e_val e vt ck) = Some (v_del v) /\
     e_val e vt ck <> ck) as VAL.
  { intros vt O. destruct (val_here _ _ _ _ OK (i_sane _ _ I) O) as (v & Dv & Vv & Sv). exists v.
    repeat split; auto. intros E. rewrite E in Dv. destruct C; congruence. }
  set (rent := e_rent e CONFIG_LEN) in *.
  (* leaving *)
  assert (exists w2, leave_previous e w1 a (e_vault e ck) s1 = Ok w2 /\ ready e ck w2 /\
     (exists l, touches l w1 w2 /\ forall k, In k l -> sync_writes e w a s vw k) /\ total_lamports w2 = total_lamports w1 /\
     (forall k, own (get w2 k) = own (get w k)) /\
     dat (get w2 sk) = DSol s1 /\
     (forall vt v, dat (get w (e_val e vt ck)) = DVal v -> own (get w (e_val e vt ck)) = e_prog e ->
        vw_vote vw = vt -> vt <> 0 ->
        exists v', dat (get w2 (e_val e vt ck)) = DVal v' /\ authority (v_del v') = authority (v_del v) /\
          vote (v_del v') = vote (v_del v) /\
          v_min v' = v_min v /\ v_total v' = (if vt =? vote (s_del s) then v_total v - s_lamports s else v_total v) /\
          pending e w2 ck (e_val e vt ck) + rent <= lam (get w2 ck))) as (w2 & L2 & RY2 & (l2 & TO2 & WR2) & TL2 & OW2 & D2 & V2).
  { pose proof (go_paid _ _ _ _ _ _ _ _ G1) as PD1.
    destruct (N.eq_dec (vote (s_del s)) 0) as [V0|V0].
    - exists w1. destruct (i_totals _ _ I) as [_ SKs]. destruct (SKs _ _ _ (conj SO SD) SK) as [Z _]. specialize (Z V0).
      split; [|split; [auto|split; [exists []; split; [apply touches_refl|intros ? []]|split; [auto|split; [apply (go_own _ _ _ _ _ _ _ _ G1)|split; [auto|]]]]]].
      + unfold leave_previous. cbn. rewrite V0, Z. reflexivity.
      + intros vt v Dv Ov VW NZ. exists v. rewrite (go_dat _ _ _ _ _ _ _ _ G1); auto.
        2:{ intros E. rewrite E in Dv. destruct C; congruence. }
        split; [auto|]. split; [auto|]. split; [auto|]. split; [auto|]. split; [rewrite V0, (proj2 (N.eqb_neq _ _) NZ); auto|].
        rewrite (collected_pending _ _ _ _ _ _ (go_coll _ _ _ _ _ _ _ _ G1)) by auto.
        assert (In (e_val e vt ck) ks) as IV by (apply KS; right; right; subst vt; auto).
        pose proof (sum_over_in2 (pending e w ck) ks _ _ ND ISK IV ltac:(auto)). lia.
    - destruct (PRV V0) as [PE (vp & VAP & PAU & PCAP)]. rewrite PE in VAP.
      destruct (limits_total _ _ _ _ _ I OK (conj SO SD) SK V0) as (v & [Ov Dv] & Vv & LE).
      destruct (VAL _ Ov) as (v0 & Dv0 & _ & VA & Sv & NVC). rewrite Dv in Dv0. injection Dv0 as <-.
      assert (vp = v) as -> by (destruct VAP; congruence).
      assert (hs_prev_auth a <> ck) as PNA by (apply PAYS; right; split; [now apply RSC|auto]).
      assert (In (e_val e (vote (s_del s)) ck) ks) as IV by (apply KS; right; left; auto).
      pose proof (wf_dat _ (e_val e (vote (s_del s)) ck) (i_wf _ _ I)) as WV. rewrite Dv in WV. cbn in WV.
      destruct (resync_goes e ck w1 c1 (e_val e (vote (s_del s)) ck) v (hs_prev_auth a) (hs_vhr a)
        (fun t => csub t (s_lamports s)) (v_total v - s_lamports s) OK RY1 CA1) as (w2 & R2 & _ & G2 & d' & D2 & A2 & E2); auto.
      { rewrite (co_oth _ _ _ _ _ (go_coll _ _ _ _ _ _ _ _ G1)); auto. }
      { rewrite (go_dat _ _ _ _ _ _ _ _ G1); auto. }
      { now apply csub_le. }
      { lia. }
      { rewrite (collected_pending _ _ _ _ _ _ (go_coll _ _ _ _ _ _ _ _ G1)) by auto.
        pose proof (sum_over_in2 (pending e w ck) ks _ _ ND ISK IV ltac:(auto)). unfold rent in PAY. lia. }
      exists w2.
      split; [|split; [apply (go_ready _ _ _ _ _ _ _ _ G2)|split; [|
        split; [apply (go_tot _ _ _ _ _ _ _ _ G2)|split; [|split]]]]].
      2:{ eexists. split; [exact (go_touch _ _ _ _ _ _ _ _ G2)|]. cbn [opt_list]. intros k [<-|[<-|[<-|[]]]]; [apply WR1; simpl; auto| |].
          all: right; (split; [now apply RSC|]); right; left; split; [exact V0|]; rewrite PE; simpl; auto. }
      + unfold leave_previous. cbn [s1 s_del set_s_del vote set_lasts s_lamports]. rewrite (proj2 (N.eqb_neq _ _) V0). cbn [negb].
        rewrite <- CK, PE. rewrite require_true by (rewrite (go_own _ _ _ _ _ _ _ _ G1); now apply N.eqb_eq).
        rewrite require_true by now apply N.eqb_eq. rewrite (go_dat _ _ _ _ _ _ _ _ G1), Dv by auto. cbn [unpack_val].
        rewrite bind_Ok. exact R2.
      + intros k. rewrite (go_own _ _ _ _ _ _ _ _ G2). apply (go_own _ _ _ _ _ _ _ _ G1).
      + rewrite (go_dat _ _ _ _ _ _ _ _ G2); auto.
      + intros vt v' Dv' Ov' VW NZ. pose proof (go_paid _ _ _ _ _ _ _ _ G2) as PD2.
        destruct (N.eq_dec vt (vote (s_del s))) as [->|NV].
        * rewrite Dv in Dv'. injection Dv' as <-. eexists. split; [exact D2|]. cbn.
          split; [auto|]. split; [auto|]. split; [auto|]. split; [now rewrite N.eqb_refl|].
          rewrite (collected_zero _ _ _ _ _ (go_coll _ _ _ _ _ _ _ _ G2)).
          rewrite (collected_pending _ _ _ _ _ _ (go_coll _ _ _ _ _ _ _ _ G1)) in PD2 by auto.
          pose proof (sum_over_in2 (pending e w ck) ks _ _ ND ISK IV ltac:(auto)). lia.
        * assert (e_val e vt ck <> e_val e (vote (s_del s)) ck) as NEV.
          { intros E. rewrite E in Dv'. rewrite Dv in Dv'. injection Dv' as <-. apply (ok_val_inj e OK) in E. now destruct E. }
          assert (In (e_val e vt ck) ks) as IV' by (apply KS; right; right; subst vt; auto).
          assert (e_val e vt ck <> ck) as NVC'. { intros E. rewrite E in Dv'. destruct C; congruence. }
          exists v'. rewrite (go_dat _ _ _ _ _ _ _ _ G2), (go_dat _ _ _ _ _ _ _ _ G1) by auto.
          split; [auto|]. split; [auto|]. split; [auto|]. split; [auto|]. split; [now rewrite (proj2 (N.eqb_neq _ _) NV)|].
          rewrite (collected_pending _ _ _ _ _ _ (go_coll _ _ _ _ _ _ _ _ G2)) by auto.
          rewrite (collected_pending _ _ _ _ _ _ (go_coll _ _ _ _ _ _ _ _ G1)) by auto.
          rewrite (collected_pending _ _ _ _ _ _ (go_coll _ _ _ _ _ _ _ _ G1)) in PD2 by auto.
          pose proof (sum_over_in3 (pending e w ck) ks _ _ _ ND ISK IV IV' ltac:(auto) ltac:(auto) ltac:(auto)). lia. }
  rewrite L2, bind_Ok in HAND.
  destruct (ready_config _ _ _ RY2) as [c2 CA2].
  (* joining *)
  assert (exists w3 cv cs, join_current e w2 a (e_vault e ck) (vw_vote vw) (vw_effective vw) = Ok (w3, cv, cs) /\ ready e ck w3 /\
     (exists l, touches l w2 w3 /\ forall k, In k l -> sync_writes e w a s vw k) /\ total_lamports w3 = total_lamports w2 /\
     (forall k, own (get w3 k) = own (get w k)) /\ dat (get w3 sk) = DSol s1 /\ cs < U64 /\ cap cs < U64)
    as (w3 & cv & cs & J3 & RY3 & (l3 & TO3 & WR3) & TL3 & OW3 & D3 & CSB & CSL).
  { unfold join_current. rewrite <- CK. destruct (N.eq_dec (vw_vote vw) 0) as [Z|NZ].
    - rewrite Z. cbn. exists w2, 0, (vw_effective vw). split; [auto|]. split; [auto|]. split; [exists []; split; [apply touches_refl|intros ? []]|]. split; [auto|]. split; [auto|]. split; [auto|]. split; [auto|]. apply CAP; auto.
    - rewrite (proj2 (N.eqb_neq _ _) NZ). cbn [negb]. pose proof (CUE NZ) as CE. rewrite require_true by now apply N.eqb_eq.
      rewrite OW2. destruct (N.eqb_spec (own (get w (hs_cur a))) (e_prog e)) as [O|O].
      + assert (joins e w a vw) as JN by (split; auto). destruct (CUR JN) as (vc & VAC & CAU & CSUM & CCAP).
        assert (hs_cur_auth a <> ck) as CNA by (apply PAYS; right; split; [now apply RSC|auto]).
        assert (forall k, In k [hs_cur a; hs_cur_auth a] -> sync_writes e w a s vw k) as WRC by (intros k K; right; split; [now apply RSC|auto]).
        rewrite CE in O, VAC, WRC |- *. destruct (VAL _ O) as (v & Dv & Vv & VA & Sv & NVC).
        assert (vc = v) as -> by (destruct VAC; congruence).
        destruct (V2 _ _ Dv O eq_refl NZ) as (v' & Dv' & A' & VV' & M' & T' & P').
        destruct (resync_goes e ck w2 c2 (e_val e (vw_vote vw) ck) v' (hs_cur_auth a) (hs_vhr a)
          (fun t => add64 t (vw_effective vw)) (v_total v' + vw_effective vw) OK RY2 CA2) as (w3 & R3 & _ & G3 & _); auto.
        { apply stake_of_intro; [rewrite OW2; auto|rewrite Dv'; reflexivity|]. rewrite Dv'. simpl. now rewrite VV', Vv. }
        { congruence. }
        { apply add64_lt. rewrite T'. exact CSUM. }
        { rewrite T'. exact CSUM. }
        { rewrite T', M'. exact CCAP. }
        rewrite Dv'. cbn [unpack_val]. rewrite bind_Ok, R3, bind_Ok. exists w3, (vw_vote vw), (vw_effective vw).
        split; [auto|]. split; [apply (go_ready _ _ _ _ _ _ _ _ G3)|]. split.
        { eexists. split; [exact (go_touch _ _ _ _ _ _ _ _ G3)|]. cbn [opt_list]. intros k [<-|[<-|[<-|[]]]]; [apply WR1; simpl; auto|apply WRC; simpl; auto..]. }
       
        split; [apply (go_tot _ _ _ _ _ _ _ _ G3)|]. split; [|split; [|split; [auto|apply CAP; auto]]].
        * intros k. rewrite (go_own _ _ _ _ _ _ _ _ G3). auto.
        * rewrite (go_dat _ _ _ _ _ _ _ _ G3); auto.
      + exists w2, 0, 0. split; [auto|]. split; [auto|]. split; [exists []; split; [apply touches_refl|intros ? []]|].
        split; [auto|]. split; [auto|]. split; [auto|]. split; reflexivity. }
  rewrite J3, bind_Ok in HAND. rewrite D3 in HAND. cbn [unpack_sol] in HAND. rewrite bind_Ok in HAND.
  destruct (ready_config _ _ _ RY3) as [c3 CA3].
  destruct (final_goes e ck w3 c3 sk s1 cv cs OK RY3 CA3) as (w4 & R4 & TO4 & TL4); auto.
  { apply stake_of_intro; [rewrite OW3; auto|rewrite D3; reflexivity|]. rewrite D3. simpl. now rewrite <- SK. }
  exists w4. eapply FIN.
  - apply HAND. cbv zeta. exact R4.
  - apply touches_trans with w1; [eapply touches_incl; [exact (go_touch _ _ _ _ _ _ _ _ G1)|]|].
    2:{ apply touches_trans with w2; [eapply touches_incl; [exact TO2|]|].
        2:{ apply touches_trans with w3; [eapply touches_incl; [exact TO3|]|eapply touches_incl; [exact TO4|]]. 2: apply incl_appr, incl_appr, incl_appr, incl_refl.
            apply incl_appr, incl_appr, incl_appl, incl_refl. }
        apply incl_appr, incl_appl, incl_refl. }
    apply incl_appl, incl_refl.
  - intros k K. rewrite !in_app_iff in K. destruct K as [K|[K|[K|K]]]; auto.
    + simpl in K. destruct K as [<-|[<-|[<-|[<-|[]]]]]; try (apply WR1; simpl; auto; fail). apply WRK; auto.
    + apply WR1. simpl in K |- *. tauto.
  - rewrite TL4, TL3, TL2. apply (go_tot _ _ _ _ _ _ _ _ G1).
Qed.

(** ** Necessary *)
Lemma max_ok l x : l < U64 -> calculate_maximum_stake l = Ok x -> cap l < U64.
Proof. intros B H. rewrite maxstake_eq in H by auto. unfold cap. destruct (N.ltb_spec (13 * l / 10) U64); [auto|discriminate]. Qed.
Lemma harvested_val_min e w ck vhr auth va sk kp w' k v' : harvested e w ck vhr auth va sk kp w' -> dat (get w' k) = DVal v' ->
  exists v, dat (get w k) = DVal v /\ v_total v' = v_total v /\ v_min v' = v_min v /\ authority (v_del v') = authority (v_del v).
Proof.
  intros [] E. rewrite Hdat in E. destruct (ck =? k); [discriminate|].
  destruct (N.eqb_spec sk k) as [->|]; [|exists v'; auto 8]. destruct (dat (get w k)) as [| |v| | | | |] eqn:D; try discriminate.
  simpl in E, Hd. injection Hd as <-. injection E as <-. exists v. auto.
Qed.
Lemma revalidated_must e w ck vhr vs vk va f w' : revalidated e w ck vhr vs vk va f w' ->
  (exists v t x, dat (get w vk) = DVal v /\ va = authority (v_del v) /\ f (v_total v) = Ok t /\
     calculate_maximum_stake (N.max t (v_min v)) = Ok x /\
     forall v', dat (get w' vk) = DVal v' -> v_total v' = t /\ v_min v' = v_min v /\ authority (v_del v') = authority (v_del v)) /\
  (forall k, own (get w' k) = own (get w k)) /\
  (forall k v', k <> vk -> dat (get w' k) = DVal v' -> dat (get w k) = DVal v').
Proof.
  intros [v t u1 u2 R1 Rv Rf -> R3]. destruct (harvested_val_min _ _ _ _ _ _ _ _ _ _ _ R1 Rv) as (v0 & D0 & T0 & M0 & A0). split; [|split].
  - destruct R3. exists v0, t, limit. rewrite <- T0, <- M0. split; [auto|]. split.
    { destruct R1. rewrite D0 in Hd0. apply del_val in Hd0 as ->. auto. }
    split; [auto|]. split; [auto|]. intros v' E. rewrite Hdat in E. destruct (ck =? vk); [discriminate|].
    wsi E. wsi Hd. rewrite N.eqb_refl in E, Hd. simpl in E, Hd. injection Hd as <-. simpl in E. injection E as <-. simpl. auto.
  - intros k. destruct R1, R3. rewrite Ho0. ws. auto.
  - intros k v' NE E. destruct R3. rewrite Hdat in E. destruct (N.eqb_spec ck k); [discriminate|].
    destruct (N.eqb_spec vk k); [congruence|]. wsi E. destruct (N.eqb_spec vk k); [congruence|].
    destruct R1. rewrite Hdat0 in E. destruct (N.eqb_spec ck k); [congruence|]. destruct (N.eqb_spec vk k); [congruence|]. exact E.
Qed.
Lemma harvest_sol_must e cx a w w' s vw : env_ok e -> inv e w -> sol_at e w (hs_stake a) s -> c_view cx = Some vw -> vw_effective vw < U64 ->
  harvest_sol_staker_rewards e cx a w = Ok w' ->
  (changed s vw -> affordable e w (hs_config a) (settles_with e w (hs_config a) (hs_stake a) (vote (s_del s)) (vw_vote vw))) ->
  can_harvest_sol e w a s vw.
Proof.
  intros OK IV SA CV VB H AF. pose proof (i_wf _ _ IV) as WF.
  destruct (harvest_sol_needs _ _ _ _ _ IV H) as (s' & vw' & [C0 [SA' ST] NAT [VI CV'] KP PRV CUR]).
  assert (s' = s) as -> by (destruct SA, SA'; congruence). assert (vw' = vw) as -> by congruence.
  constructor; auto. intros CH. apply harvest_sol_staker_rewards_ok in H. destruct H as [c0 s0 vw0|c0 s0 vw0 kp s1 s3 w1 w2 w3 w4 cv cs].
  { exfalso. destruct SA as [_ SD]. rewrite Hs in SD. injection SD as ->. rewrite CV in Hvw. injection Hvw as ->.
    destruct Hsame. unfold changed in CH. tauto. }
  assert (s0 = s) as -> by (destruct SA; congruence). assert (vw0 = vw) as -> by congruence.
  destruct (harvested_sol _ _ _ _ _ _ _ _ _ _ _ H1 Hs1) as (s2 & X2 & L2 & _ & _ & _ & VE). rewrite Hs in X2. injection X2 as <-.
  assert (forall k, own (get w1 k) = own (get w k)) as O1 by (destruct H1; auto).
  assert (forall k v, dat (get w1 k) = DVal v -> exists v0, dat (get w k) = DVal v0 /\ v_total v = v_total v0 /\ v_min v = v_min v0 /\
    authority (v_del v) = authority (v_del v0)) as V1 by (intros k v E; exact (harvested_val_min _ _ _ _ _ _ _ _ _ _ _ H1 E)).
  assert (leaves s -> hs_prev a = e_val e (vote (s_del s)) (hs_config a) /\
    exists v, val_at e w (hs_prev a) v /\ hs_prev_auth a = authority (v_del v) /\ cap (N.max (v_total v - s_lamports s) (v_min v)) < 2 ^ 64) as PREV.
  { intros LV. destruct H2 as [Q1 Q2 Q3 Q4|Q1 _ _]; [|unfold leaves in LV; congruence]. split; [congruence|].
    destruct (revalidated_must _ _ _ _ _ _ _ _ _ Q4) as ((v & t & x & Dv & Av & Ft & Mx & _) & _).
    destruct (V1 _ _ Dv) as (v0 & D0 & T0 & M0 & A0). exists v0. split; [split; [congruence|auto]|]. split; [congruence|].
    apply csub_ok in Ft as [Le ->]. rewrite L2, T0, M0 in Mx. eapply max_ok; [|exact Mx].
    pose proof (wf_dat _ (hs_prev a) WF) as W. rewrite D0 in W. destruct W as (W1 & W2 & W3). lia. }
  assert ((forall k, own (get w2 k) = own (get w k)) /\
    forall k v, k = e_val e (vw_vote vw) (hs_config a) -> vw_vote vw <> 0 -> dat (get w2 k) = DVal v -> exists v0, dat (get w k) = DVal v0 /\
      v_total v = (if vw_vote vw =? vote (s_del s) then v_total v0 - s_lamports s else v_total v0) /\ v_min v = v_min v0 /\
      authority (v_del v) = authority (v_del v0)) as [O2 V2].
  { destruct H2 as [Q1 Q2 Q3 Q4|Q1 Q2 ->].
    - destruct (revalidated_must _ _ _ _ _ _ _ _ _ Q4) as ((v1 & t & x & Dv & Av & Ft & Mx & Af) & R1 & R2).
      split; [intros k; rewrite R1; auto|]. intros k v -> NZ Dk. rewrite VE in Q3.
      destruct (N.eqb_spec (vw_vote vw) (vote (s_del s))) as [E|E].
      + rewrite E, <- Q3 in Dk |- *. destruct (Af _ Dk) as (T1 & M1 & A1). destruct (V1 _ _ Dv) as (v0 & D0 & T0 & M0 & A0).
        exists v0. apply csub_ok in Ft as [Le ->]. repeat split; auto; congruence.
      + apply R2 in Dk; [destruct (V1 _ _ Dk) as (v0 & D0 & T0 & M0 & A0); exists v0; auto|].
        rewrite Q3. intros X. apply (ok_val_inj e OK) in X. tauto.
    - split; [auto|]. intros k v -> NZ Dk. destruct (V1 _ _ Dk) as (v0 & D0 & T0 & M0 & A0). exists v0.
      rewrite VE in Q1. rewrite Q1, (proj2 (N.eqb_neq _ _) NZ). auto. }
  assert (forall x, x = cs -> x < U64 -> cap x < U64) as CAPS.
  { intros x -> B. destruct H5. rewrite N.max_0_r in Hm. eapply max_ok; eauto. }
  constructor; auto.
  - intros NZ. now apply CUR.
  - intros [NZ OC]. destruct (CUR CH NZ) as [CE _]. destruct H3; [|exfalso; rewrite O2 in Ho; congruence|congruence].
    destruct (revalidated_must _ _ _ _ _ _ _ _ _ H) as ((v & t & x & Dv & Av & Ft & Mx & _) & _).
    destruct (V2 _ _ CE NZ Dv) as (v0 & D0 & T0 & M0 & A0). exists v0. split; [split; auto|]. split; [congruence|].
    apply add64_ok in Ft as [-> B]. unfold total_joined. rewrite <- T0. split; [exact B|]. rewrite <- M0. eapply max_ok; [|exact Mx].
    pose proof (wf_dat _ (hs_cur a) WF) as W. rewrite D0 in W. destruct W as (W1 & W2 & W3). lia.
  - intros [Z|[NZ OC]].
    + destruct H3; try congruence. apply CAPS; auto.
    + destruct H3; [|exfalso; rewrite O2 in Ho; congruence|congruence]. apply CAPS; auto.
Qed.
