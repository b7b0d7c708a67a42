(** The governance and initialisation instructions go through exactly when the
    conditions of [SpecExact.v] hold. *)
From Verif Require Import Base Types Layout Instr Math External Processor Runtime History Spec SpecExact
  WorldLemmas Effects Handlers Rewards Live.

Lemma run_touches e cx c w w' l : handler e cx c w = Ok w' -> touches l w w' -> total_lamports w' = total_lamports w ->
  (forall k, In k l -> writable cx k = true) -> run e cx c w = Ok w'.
Proof.
  intros H T L W. unfold run. rewrite H. cbn [bind]. rewrite (runtime_check_touches cx l w w' T L W). reflexivity.
Qed.
Lemma load_config_runs e w k c : config_at e w k c -> load_config e w k = Ok c.
Proof. intros [O D]. unfold load_config. rewrite O, N.eqb_refl, D. reflexivity. Qed.
Lemma require_pass b x : b = true -> require b x = Ok tt.
Proof. intros ->. reflexivity. Qed.
Ltac pass t := rewrite (require_pass _ _ t); cbn [bind].

Lemma update_exact e cx a f w : writable cx (uc_config a) = true ->
  (exists w', run e cx (CUpdateConfig a f) w = Ok w') <-> exists c, can_update e cx w a f c.
Proof.
  intros W. split.
  - intros [w' R]. apply run_ok in R as (H & _). pose proof (update_config_ok e cx a f w w' H) as D. clear H. destruct D as [c ? ? ? ? ? ? ?].
    exists c. split; [split; auto|split; [auto|split; [congruence|auto]]|auto].
  - intros [c [C (A & Z & S) F]].
    eexists. eapply (run_touches e cx (CUpdateConfig a f) w _ [uc_config a]).
    + cbn [handler]. unfold update_config. rewrite (load_config_runs _ _ _ _ C). cbn [bind].
      pass (proj2 (negb_true_iff _) (proj2 (N.eqb_neq _ _) (eq_ind _ (fun x => x <> 0) Z _ A))).
      pass (proj2 (N.eqb_eq _ _) A). pass S.
      assert (match f with
              | CooldownTimeSeconds x => Ok (set_cfg_cooldown c x)
              | MaxDeactivationBasisPoints x => let* _ := require (x <=? MAX_BPS) InvalidArgument in Ok (set_cfg_bps c x)
              | SyncRewardsLamports x => Ok (set_cfg_sync c x)
              end = Ok (update_field c f)) as ->.
      { destruct f; auto. rewrite (proj2 (N.leb_le _ _) (F _ eq_refl)). reflexivity. }
      cbn [bind]. reflexivity.
    + apply touches_setd.
    + apply total_setd.
    + intros k [<-|[]]. exact W.
Qed.

Lemma set_authority_exact e cx a t w : writable cx (sa_account a) = true ->
  (exists w', run e cx (CSetAuthority a t) w = Ok w') <-> exists c, can_set_authority e cx w a t c.
Proof.
  intros W. split.
  - intros [w' R]. apply run_ok in R as (H & _). pose proof (set_authority_ok e cx a t w w' H) as D. clear H. destruct D as [c ? ? ? ? ? ?].
    exists c. split; [split; auto|auto].
  - intros [c [C (A & Z & S)]].
    eexists. eapply (run_touches e cx (CSetAuthority a t) w _ [sa_account a]).
    + cbn [handler]. unfold set_authority_ix. pass S. rewrite (load_config_runs _ _ _ _ C). cbn [bind]. cbv zeta.
      rewrite <- A. pass (proj2 (negb_true_iff _) (proj2 (N.eqb_neq _ _) Z)).
      pass (N.eqb_refl (sa_authority a)). reflexivity.
    + apply touches_setd.
    + apply total_setd.
    + intros k [<-|[]]. exact W.
Qed.

Lemma sync_authority_exact e cx a w : writable cx (sy_stake a) = true ->
  (exists w', run e cx (CValidatorSyncAuthority a) w = Ok w') <-> can_sync_authority e w a.
Proof.
  intros W. split.
  - intros [w' R]. apply run_ok in R as (H & _). pose proof (validator_sync_authority_ok e cx a w w' H) as D. clear H. destruct D as [c v wd].
    split.
    + exists c. now split.
    + split; auto. exists v. now split.
    + split; eauto.
  - intros [[c C] [K (v & VO & VD)] [O [wd D]]].
    eexists. eapply (run_touches e cx (CValidatorSyncAuthority a) w _ [sy_stake a]).
    + cbn [handler]. unfold validator_sync_authority. rewrite (load_config_runs _ _ _ _ C). cbn [bind].
      pass (proj2 (N.eqb_eq _ _) K). rewrite VD. cbn [unpack_val bind].
      pass (proj2 (N.eqb_eq _ _) O). rewrite D. cbn [vote_withdrawer bind].
      pass (proj2 (N.eqb_eq _ _) VO). reflexivity.
    + apply touches_put_del.
    + unfold put_del. apply total_setd.
    + intros k [<-|[]]. exact W.
Qed.

Lemma blank_ok e d : data_len d = CONFIG_LEN -> config_uninitialized e d = true ->
  exists b, d = DRaw b /\ length b = 192%nat /\ firstn 8 b = [0;0;0;0;0;0;0;0].
Proof.
  intros L U. unfold config_uninitialized, bytes_eqb in U. apply bool_decide_eq_true in U. unfold slice in U. rewrite skipn_O in U.
  destruct d; simpl in L; try discriminate.
  - exists b. split; auto. split; [change CONFIG_LEN with 192 in L; lia|exact U].
Qed.
Lemma blank_runs e b : length b = 192%nat -> firstn 8 b = [0;0;0;0;0;0;0;0] ->
  data_len (DRaw b) = CONFIG_LEN /\ config_uninitialized e (DRaw b) = true.
Proof.
  intros L F. split; [simpl; rewrite L; reflexivity|]. unfold config_uninitialized, slice. rewrite skipn_O.
  cbn [raw_bytes]. rewrite F. reflexivity.
Qed.

Lemma assign_runs sig w k o : sig k = true -> own (get w k) = 0 \/ own (get w k) = o ->
  exists w', system_assign sig w k o = Ok w' /\ touches [k] w w' /\ (forall x, dat (get w' x) = dat (get w x)) /\
    (forall x, lam (get w' x) = lam (get w x)) /\ (forall x, own (get w' x) = if k =? x then o else own (get w x)).
Proof.
  intros S O. unfold system_assign. destruct (N.eqb_spec (own (get w k)) o) as [E|NE].
  - exists w. split; auto. split; [apply touches_refl|]. repeat split; auto. intros x.
    destruct (N.eqb_spec k x); subst; auto.
  - destruct O as [O|O]; [|congruence]. rewrite S, O. exists (seto w k o). split; [reflexivity|].
    repeat split; try (intros x; ws; auto; fail).
    intros x NI. assert (k <> x) as NX by (intros ->; apply NI; now left). unfold seto. rewrite get_put.
    now rewrite (proj2 (N.eqb_neq _ _) NX).
Qed.
Lemma allocate_runs sig w k len : sig k = true -> own (get w k) = 0 -> dat (get w k) = DRaw [] ->
  system_allocate sig w k len = Ok (setd w k (DRaw (repeat 0 (N.to_nat len)))).
Proof. intros S O D. unfold system_allocate. rewrite S, O, D. reflexivity. Qed.
Lemma with_pda_self cx k : with_pda cx k k = true.
Proof. unfold with_pda. rewrite N.eqb_refl. apply orb_true_r. Qed.

Lemma init_config_exact e cx a s au cd b sy du w :
  writable cx (ic_config a) = true -> writable cx (ic_vault_pda a) = true ->
  (exists w', run e cx (CInitializeConfig a s au cd b sy du) w = Ok w') <-> exists t, can_init_config e w a b t.
Proof.
  intros W1 W2. split.
  - intros [w' R]. apply run_ok in R as (H & _). pose proof (initialize_config_ok e cx a s au cd b sy du w w' H) as D. clear H. destruct D as [t].
    destruct (blank_ok e _ Hlen Hun) as (bs & B1 & B2 & B3). exists t. split; auto.
    + split; [|split; [exact Hrent|eauto]]. destruct Hco as [|E]; auto. rewrite E, Hve in B1.
      injection B1 as <-. discriminate.
    + split; auto. split; auto. tauto.
    + split; auto. split; [congruence|auto].
  - intros [t [(CO & CR & bs & B1 & B2 & B3) (VK & VD & VO) VH [m M] (TD & TO & TM & TA & TC & TL) BP]].
    destruct (blank_runs e bs B2 B3) as [L U].
    destruct (assign_runs (with_pda cx (e_vault e (ic_config a))) w (ic_vault_pda a) (e_prog e)) as (w1 & A & T1 & D1 & L1 & O1);
      [rewrite VK; apply with_pda_self|exact VO|].
    eexists. eapply (run_touches e cx (CInitializeConfig a s au cd b sy du) w _ [ic_vault_pda a; ic_config a]).
    + cbn [handler]. unfold initialize_config. cbv zeta. rewrite M. cbn [unpack_mint bind].
      pass (proj2 (N.eqb_eq _ _) VK). rewrite VD. pass (eq_refl : data_empty (DRaw []) = true).
      rewrite A. cbn [bind]. pass (proj2 (N.eqb_eq _ _) VH). rewrite !D1, !L1, O1, TD. cbn [unpack_token bind].
      rewrite <- VK. pass (proj2 (N.eqb_eq _ _) TO). pass (bool_decide_eq_true_2 _ TC).
      pass (bool_decide_eq_true_2 _ TL). pass (proj2 (N.eqb_eq _ _) TM). pass (proj2 (N.eqb_eq _ _) TA).
      assert (((if ic_vault_pda a =? ic_config a then e_prog e else own (get w (ic_config a))) =? e_prog e) = true) as OO.
      { apply N.eqb_eq. destruct (_ =? _); auto. }
      pass OO. rewrite B1. pass (proj2 (N.eqb_eq _ _) L). pass U. pass (proj2 (N.leb_le _ _) CR).
      pass (proj2 (N.leb_le _ _) BP). reflexivity.
    + eapply touches_trans; [eapply touches_incl; [exact T1|]|eapply touches_incl; [apply touches_setd|]];
        intros x [<-|[]]; simpl; auto.
    + rewrite total_setd. apply total_same. auto.
    + intros k [<-|[<-|[]]]; auto.
Qed.

Lemma init_val_exact e cx a w : writable cx (iv_stake a) = true ->
  (exists w', run e cx (CInitializeValidatorStake a) w = Ok w') <-> exists c wd, can_init_val e w a c wd.
Proof.
  intros W. split.
  - intros [w' R]. apply run_ok in R as (H & _). pose proof (initialize_validator_stake_ok e cx a w w' H) as D. clear H. destruct D as [c wd].
    exists c, wd. split; split; auto. repeat split; auto.
  - intros (c & wd & [C (VO & VD) (DK & DB) (SK & SO & SD & SL)]).
    set (w1 := setd w (iv_stake a) (DRaw (repeat 0 (N.to_nat VAL_LEN)))).
    assert (own (get w1 (iv_stake a)) = 0) as O1 by (unfold w1; ws; auto).
    assert (with_pda cx (e_val e (iv_vote a) (iv_config a)) (iv_stake a) = true) as WP
      by (rewrite <- SK; apply with_pda_self).
    destruct (assign_runs (with_pda cx (e_val e (iv_vote a) (iv_config a))) w1 (iv_stake a) (e_prog e) WP
      ltac:(now left)) as (w2 & A & T2 & D2 & L2 & O2).
    eexists. eapply (run_touches e cx (CInitializeValidatorStake a) w _ [iv_stake a]).
    + cbn [handler]. unfold initialize_validator_stake. cbv zeta. rewrite (load_config_runs _ _ _ _ C). cbn [bind].
      pass (proj2 (N.eqb_eq _ _) VO). rewrite VD. cbn [vote_withdrawer bind]. unfold check_duna.
      pass (proj2 (N.eqb_eq _ _) DK). pass (bool_decide_eq_true_2 _ DB). pass (proj2 (N.eqb_eq _ _) SK).
      rewrite SD. pass (eq_refl : data_empty (DRaw []) = true). pass (proj2 (N.leb_le _ _) SL).
      rewrite (allocate_runs _ _ _ _ WP SO SD). cbn [bind]. fold w1. rewrite A. cbn [bind]. reflexivity.
    + eapply touches_trans; [eapply touches_trans; [apply touches_setd|exact T2]|apply touches_setd].
    + rewrite total_setd. rewrite (total_same w1 w2) by auto. apply total_setd.
    + intros k [<-|[]]. exact W.
Qed.

Lemma init_sol_extra e cx a w w' : initialize_sol_staker_stake e cx a w = Ok w' ->
  is_view a = e_view e /\
  (dat (get w (is_override a)) = DRaw [] \/ 32 <= data_len (dat (get w (is_override a)))).
Proof.
  intros H. unfold initialize_sol_staker_stake in H. stepn H c Ec. stepg H G1. split; [exact G1|].
  stepn H vw Evw. stepg H G2. stepg H G3. stepn H u Eu. stepg H G4. stepg H G5. stepn H v0 Ev0. cbv zeta in H.
  stepg H G6. stepg H G7. stepg H G8. stepn H au Eau. clear H.
  destruct (data_empty (dat (get w (is_override a)))) eqn:DE; [left; now apply data_empty_ok|].
  destruct (N.leb_spec 32 (data_len (dat (get w (is_override a))))); [auto|discriminate].
Qed.
Lemma init_sol_exact e cx a w : writable cx (is_stake a) = true -> writable cx (is_val a) = true ->
  (exists w', run e cx (CInitializeSolStakerStake a) w = Ok w') <-> exists c vw v, can_init_sol e cx w a c vw v.
Proof.
  intros W1 W2. split.
  - intros [w' R]. apply run_ok in R as (H & _). pose proof (init_sol_extra e cx a w w' H) as [VK OV].
    pose proof (initialize_sol_staker_stake_ok e cx a w w' H) as D. clear H. destruct D as [c vw v au].
    exists c, vw, v. split; repeat split; auto.
  - intros (c & vw & v & [C (VK & CV & VV & VW) (DK & DB) (K & (VO & VD) & VB) (SK & SO & SD & SL) (OK & OV)]).
    set (w1 := setd w (is_stake a) (DRaw (repeat 0 (N.to_nat SOL_LEN)))).
    assert (own (get w1 (is_stake a)) = 0) as O1 by (unfold w1; ws; auto).
    assert (with_pda cx (e_sol e (is_native a) (is_config a)) (is_stake a) = true) as WP
      by (rewrite <- SK; apply with_pda_self).
    destruct (assign_runs (with_pda cx (e_sol e (is_native a) (is_config a))) w1 (is_stake a) (e_prog e) WP
      ltac:(now left)) as (w2 & A & T2 & D2 & L2 & O2).
    assert (is_stake a <> is_val a) as NE by (intros EE; rewrite <- EE, SD in VD; discriminate).
    set (ov := dat (get w (is_override a))) in *.
    assert (exists au, (if data_empty ov then Ok (vw_withdrawer vw)
                        else if 32 <=? data_len ov then Ok (num_at (raw_bytes e ov) 0 32) else Panic) = Ok au) as [au AU].
    { destruct (data_empty ov) eqn:DE; eauto. destruct OV as [E|L]; [rewrite E in DE; discriminate|].
      rewrite (proj2 (N.leb_le _ _) L). eauto. }
    set (w3 := setd w2 (is_stake a) (DSol (SStake (Del 0 0 0 au (vw_vote vw) 0 0) (vw_effective vw) (is_native a)))).
    assert (dat (get w3 (is_val a)) = DVal v) as V3.
    { unfold w3. ws. rewrite (proj2 (N.eqb_neq _ _) NE), D2. unfold w1. ws. now rewrite (proj2 (N.eqb_neq _ _) NE). }
    eexists. eapply (run_touches e cx (CInitializeSolStakerStake a) w _ [is_stake a; is_val a]).
    + cbn [handler]. unfold initialize_sol_staker_stake. cbv zeta. rewrite (load_config_runs _ _ _ _ C). cbn [bind].
      pass (proj2 (N.eqb_eq _ _) VK). rewrite CV. cbn [bind].
      pass (proj2 (negb_true_iff _) (proj2 (N.eqb_neq _ _) VV)).
      pass (proj2 (negb_true_iff _) (proj2 (N.eqb_neq _ _) VW)). unfold check_duna.
      pass (proj2 (N.eqb_eq _ _) DK). pass (bool_decide_eq_true_2 _ DB). pass (proj2 (N.eqb_eq _ _) VO).
      pass (proj2 (N.eqb_eq _ _) K). rewrite VD. cbn [unpack_val bind]. pass (proj2 (N.eqb_eq _ _) SK).
      rewrite SD. pass (eq_refl : data_empty (DRaw []) = true). pass (proj2 (N.eqb_eq _ _) OK). fold ov.
      rewrite AU. cbn [bind]. pass (proj2 (N.leb_le _ _) SL).
      rewrite (allocate_runs _ _ _ _ WP SO SD). cbn [bind]. fold w1. rewrite A. cbn [bind]. fold w3. rewrite V3.
      cbn [unpack_val bind]. unfold add64. change U64 with (2 ^ 64). rewrite (proj2 (N.ltb_lt _ _) VB). cbn [bind]. reflexivity.
    + eapply touches_trans; [|eapply touches_incl; [apply touches_setd|intros x [<-|[]]; simpl; auto]].
      apply (touches_incl [is_stake a]); [|intros x [<-|[]]; simpl; auto].
      eapply touches_trans; [eapply touches_trans; [apply touches_setd|exact T2]|apply touches_setd].
    + rewrite total_setd. unfold w3. rewrite total_setd, (total_same w1 w2) by auto. apply total_setd.
    + intros k [<-|[<-|[]]]; auto.
Qed.
