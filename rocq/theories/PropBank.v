(** C92: when everybody takes their tokens out. *)
From Coq Require Import Permutation.
From Verif Require Import Base Types Layout Instr Math External Processor Runtime History Spec SpecReward SpecLive SpecOrder SpecBank
  WorldLemmas Effects Handlers Evolve Sane Wf Arith Totals Nets Caps Stakers Deposits Inv Rewards Collect Progress
  Live LiveTokens Exit SpecExit PropState PropTokens PropReward SpecSolvency Solvency PropSolvency PropLive PropExit PropRun Demo.

(** Different stakes of the config [ck]; each unstake alone would go through, the
    pool has no new rewards, the destinations have room, and the config can pay the
    rewards pending for all of them and stay rent exempt. *)
Record exits (e : env) (w : world) (ck : pubkey) (l : list leaver) : Prop := {
  ex_each : forall x, In x l -> un_config (lv_accts x) = ck /\ wf_ctx e (lv_ctx x) /\
    c_pool_acc (lv_ctx x) mod 2 ^ 128 = holder_acc e w ck /\
    exists c d, good_unstake e (lv_ctx x) (lv_accts x) (lv_amount x) w c d;
  ex_distinct : List.NoDup (map lv_stake l);
  ex_pool : forall x y, In x l -> In y l -> un_ptok (lv_accts x) = un_ptok (lv_accts y);
  ex_room : forall x, In x l -> tokens e w (lv_dest x) + leaving l < 2 ^ 64;
  ex_pay : sum_over (pending e w ck) (map lv_stake l) + e_rent e CONFIG_LEN <= lam (get w ck);
}.

Lemma exits_of e w ck l : lined_up e w ck l -> payable e w ck l -> exits e w ck l.
Proof. intros [] P. constructor; auto. Qed.

(** What one leaver leaves for the others. *)
Record one_left (e : env) (ck : pubkey) (x : leaver) (w w' : world) : Prop := {
  ol_reach : reachable e w';
  ol_open : settled_chain e w' ck;
  ol_stake : exists d d', stake_of e w ck (lv_stake x) = Some d /\ stake_of e w' ck (lv_stake x) = Some d' /\
    staked d' + lv_amount x = staked d /\ authority d' = authority d;
  ol_stakes : forall k, k <> lv_stake x -> stake_of e w' ck k = stake_of e w ck k;
  ol_holder : holder_acc e w' ck = holder_acc e w ck;
  ol_deposit : deposit e w' ck + lv_amount x = deposit e w ck;
  ol_self : pending e w' ck (lv_stake x) = 0;
  ol_oth : forall k, k <> lv_stake x -> pending e w' ck k = pending e w ck k;
  ol_lam : forall k, lam (get w' k) + (if k =? ck then pending e w ck (lv_stake x) else 0) =
    lam (get w k) + share e w ck k (lv_stake x);
  ol_tokens : forall k m o t, liquid e w k m o t -> m = un_mint (lv_accts x) -> k <> un_ptok (lv_accts x) -> k <> un_vault (lv_accts x) ->
    exists t', liquid e w' k m o t' /\ t_amount t' = t_amount t + (if lv_dest x =? k then lv_amount x else 0);
  ol_left : exists c d, left_ready e (lv_accts x) (lv_amount x) (c_now (lv_ctx x)) w w' c d;
  ol_cfg : forall c, config_at e w ck c -> exists c', config_at e w' ck c' /\ cfg_vault c' = cfg_vault c /\ cfg_bps c' = cfg_bps c;
}.
Lemma leaver_goes e ck x w c d : env_ok e -> reachable e w -> settled_chain e w ck ->
  un_config (lv_accts x) = ck -> wf_ctx e (lv_ctx x) -> c_pool_acc (lv_ctx x) mod 2 ^ 128 = holder_acc e w ck ->
  good_unstake e (lv_ctx x) (lv_accts x) (lv_amount x) w c d ->
  exists w', run e (fst (lv_call x)) (snd (lv_call x)) w = Ok w' /\ one_left e ck x w w'.
Proof.
  intros OK R SC E WC AC G. destruct x as [cx a n]. unfold lv_stake, lv_dest in *. cbn [lv_ctx lv_accts lv_amount lv_call fst snd] in *. subst ck.
  pose proof (inv_reachable _ _ OK R) as I. assert (c_now cx < U64) as NOW by apply WC.
  destruct (unstake_goes e cx a n w c d OK I SC G NOW) as [w' RUN]. exists w'. split; [exact RUN|].
  pose proof (unstake_leaves e cx a n w w' c d OK I G AC RUN) as LR.
  destruct (gu_dest _ _ _ _ _ _ _ G) as (dt & o & LD & RD & ND1 & ND2).
  destruct (gu_vtok _ _ _ _ _ _ _ G) as (vt & LV & RV). destruct (gu_ptok _ _ _ _ _ _ _ G) as (pt & LP & DP).
  pose proof (gu_config _ _ _ _ _ _ _ G) as C. pose proof (gu_stake _ _ _ _ _ _ _ G) as S.
  destruct (gu_amount _ _ _ _ _ _ _ G) as (N0 & NM & CD). destruct (gu_vhr _ _ _ _ _ _ _ G) as (VH & VHO).
  assert (n <= staked d) as NS.
  { pose proof (C16_bps e w _ c OK R C) as BB. clear - BB NM. assert (staked d * cfg_bps c / 10000 <= staked d); [|lia].
    apply N.div_le_upper_bound; [lia|]. nia. }
  assert (step e w (Do cx (CUnstakeTokens a n)) w') as ST.
  { constructor; auto. simpl. clear - RD. lia. }
  pose proof (lr_own _ _ _ _ _ _ _ _ LR) as OW. pose proof (lr_dat _ _ _ _ _ _ _ _ LR) as DT.
  destruct SC as [(h & HH) TT].
  assert (forall k d0, stake_of e w (un_config a) k = Some d0 -> k <> un_stake a -> dat (get w' k) = dat (get w k)) as KD.
  { intros k d0 SK NE. apply stake_of_some in SK as (SO & SD & _). apply DT; auto; intros ->.
    - rewrite (proj2 C) in SD. discriminate.
    - rewrite VH, HH in SD. discriminate.
    - destruct LP as (_ & L & _). rewrite L in SD. discriminate.
    - destruct LV as (_ & L & _). rewrite L in SD. discriminate.
    - destruct LD as (_ & L & _). rewrite L in SD. discriminate. }
  destruct (lr_holder _ _ _ _ _ _ _ _ LR) as (h' & HH' & HL & HD).
  assert (holder_acc e w' (un_config a) = holder_acc e w (un_config a)) as HA by (unfold holder_acc at 1; rewrite HH'; exact HL).
  assert (n <= deposit e w (un_config a)) as ND.
  { pose proof (i_backed _ _ I (un_config a)) as B. pose proof (sum_of_ge e w _ staked _ d S). clear - B H NS. lia. }
  destruct (lr_config _ _ _ _ _ _ _ _ LR) as (c' & C' & V' & B' & K').
  assert (forall k, k <> un_stake a -> stake_of e w' (un_config a) k = stake_of e w (un_config a) k) as SK.
  { intros k NE. destruct (stake_of e w (un_config a) k) as [dk|] eqn:Q.
    - pose proof (KD _ _ Q NE) as E. unfold stake_of, stake_in in *. now rewrite OW, E.
    - destruct (stake_of e w' (un_config a) k) as [dk|] eqn:Q'; [exfalso|auto].
      assert (dat (get w' k) = dat (get w k)) as E.
      { apply stake_of_some in Q' as (SO & SD & _). apply DT; auto; intros ->.
        - rewrite (proj2 C') in SD. discriminate.
        - rewrite VH, HH' in SD. discriminate.
        - destruct (lr_ptok _ _ _ _ _ _ _ _ LR _ LP) as (? & (_ & L & _) & _). rewrite L in SD. discriminate.
        - destruct (lr_vault _ _ _ _ _ _ _ _ LR _ LV) as (? & (_ & L & _) & _). rewrite L in SD. discriminate.
        - destruct (lr_dest _ _ _ _ _ _ _ _ LR _ _ LD) as (? & (_ & L & _) & _). rewrite L in SD. discriminate. }
      unfold stake_of, stake_in in *. rewrite OW, E in Q'. congruence. }
  assert (acc_at w' (un_config a) = acc_at w (un_config a)) as AA.
  { apply (run_acc_at e cx (CUnstakeTokens a n) w w' c OK R RUN); [discriminate|exact C]. }
  constructor; cbn [lv_ctx lv_accts lv_amount].
  - eapply reachable_step; eauto.
  - split; [eauto|]. apply run_ok in RUN as (_ & _ & T & _). rewrite T. exact TT.
  - destruct (lr_stake _ _ _ _ _ _ _ _ LR) as (d' & S' & Z' & A' & _). exists d, d'. split; [exact S|]. split; [exact S'|]. split; [|exact A'].
    rewrite Z'. clear - NS. lia.
  - exact SK.
  - exact HA.
  - unfold deposit at 1. rewrite HH', HD. clear - ND. lia.
  - exact (lr_pending _ _ _ _ _ _ _ _ LR).
  - intros k NE. rewrite (pending_eq _ _ _ _ _ (proj2 C)), (pending_eq _ _ _ _ _ (proj2 C')), AA, HA, SK; auto.
  - intros k. pose proof (C24_unstaking_pays e cx a n w w' OK R RUN k) as L. cbv zeta in L. rewrite HA, since_same in L.
    unfold lv_stake. cbn [lv_accts]. clear - L. rewrite N.mul_0_l, N.div_0_l in L by discriminate.
    destruct (k =? un_pool a), (k =? e_vault e (un_config a)); lia.
  - intros k m o0 t L EM NP NV. unfold lv_dest. cbn [lv_accts]. destruct (N.eqb_spec (un_dest a) k) as [<-|NE].
    + rewrite EM in *. apply (lr_dest _ _ _ _ _ _ _ _ LR o0 t L).
    + exists t. split; [|clear; lia]. destruct L as (L1 & L2 & L3). assert (dat (get w' k) = dat (get w k)) as E.
      { apply DT; auto; intros ->.
        - rewrite (proj2 C) in L2. discriminate.
        - apply stake_of_some in S as (_ & SD & _). rewrite L2 in SD. discriminate.
        - rewrite VH, HH in L2. discriminate. }
      split; [now rewrite OW|]. split; [now rewrite E|exact L3].
  - eauto.
  - intros c0 C0. assert (c0 = c) as -> by (destruct C as [_ C], C0 as [_ C0]; congruence). eauto.
Qed.
Lemma pays_each e w ck l x : sum_over (pending e w ck) (map lv_stake l) + e_rent e CONFIG_LEN <= lam (get w ck) -> In x l ->
  affordable e w ck (fun k => k = lv_stake x).
Proof.
  intros P I. exists [lv_stake x]. split; [apply NoDup_singleton|]. split; [intros k ->; now left|]. cbn [sum_over].
  pose proof (sum_over_ge (pending e w ck) (lv_stake x) (map lv_stake l) (in_map _ _ _ I)). lia.
Qed.
Lemma exits_next e ck x l w w' : env_ok e -> reachable e w -> exits e w ck (x :: l) -> one_left e ck x w w' -> exits e w' ck l.
Proof.
  intros OK R [EA ED EP ER EY] OL.
  destruct (EA x (or_introl eq_refl)) as (XC & XW & XA & cx0 & dx & XG).
  simpl in ED. apply List.NoDup_cons_iff in ED as [NI ND].
  assert (forall y, In y l -> lv_stake y <> lv_stake x) as NE by (intros y I E; apply NI; rewrite <- E; now apply in_map).
  destruct (ol_left _ _ _ _ _ OL) as (cl & dl & LR).
  assert (sum_over (pending e w' ck) (map lv_stake l) + e_rent e CONFIG_LEN <= lam (get w' ck)) as EY'.
  { rewrite (sum_over_ext (pending e w' ck) (pending e w ck)).
    - pose proof (ol_lam _ _ _ _ _ OL ck) as L. rewrite N.eqb_refl in L. simpl in EY. clear - EY L. lia.
    - intros k I. apply in_map_iff in I as (y & <- & I). apply (ol_oth _ _ _ _ _ OL), NE, I. }
  assert (forall y, In y l -> exists ty oy, liquid e w (lv_dest y) (un_mint (lv_accts x)) oy ty /\ un_mint (lv_accts y) = un_mint (lv_accts x) /\
     lv_dest y <> un_ptok (lv_accts x) /\ lv_dest y <> un_vault (lv_accts x) /\ un_vault (lv_accts y) = un_vault (lv_accts x)) as DY.
  { intros y I. destruct (EA y (or_intror I)) as (YC & YW & YA & cy & dy & YG).
    destruct (gu_dest _ _ _ _ _ _ _ YG) as (ty & oy & LD & RD & ND1 & ND2).
    destruct (gu_vtok _ _ _ _ _ _ _ YG) as (vy & LVy & _). destruct (gu_vtok _ _ _ _ _ _ _ XG) as (vx & LVx & _).
    destruct (gu_vault _ _ _ _ _ _ _ YG) as [VY _]. destruct (gu_vault _ _ _ _ _ _ _ XG) as [VX _].
    pose proof (gu_config _ _ _ _ _ _ _ YG) as [_ CY]. pose proof (gu_config _ _ _ _ _ _ _ XG) as [_ CX]. rewrite YC in CY. rewrite XC in CX.
    assert (un_vault (lv_accts y) = un_vault (lv_accts x)) as EV by congruence.
    assert (un_mint (lv_accts y) = un_mint (lv_accts x)) as EM.
    { destruct LVy as (_ & A & B & _). destruct LVx as (_ & A' & B' & _). rewrite EV in A. rewrite A in A'. injection A' as ->. congruence. }
    exists ty, oy. rewrite EM in LD. split; [exact LD|]. split; [exact EM|]. split; [|split; [|exact EV]].
    - rewrite (EP x y (or_introl eq_refl) (or_intror I)). exact ND2.
    - rewrite <- EV. exact ND1. }
  assert (forall y, In y l -> tokens e w' (lv_dest y) = tokens e w (lv_dest y) + (if lv_dest x =? lv_dest y then lv_amount x else 0)) as TY.
  { intros y I. destruct (DY y I) as (ty & oy & L & _ & N1 & N2 & _).
    destruct (ol_tokens _ _ _ _ _ OL _ _ _ _ L eq_refl N1 N2) as (t' & L' & E').
    now rewrite (liquid_tokens _ _ _ _ _ _ L), (liquid_tokens _ _ _ _ _ _ L'). }
  constructor; [|exact ND| | |exact EY'].
  - intros y I. destruct (EA y (or_intror I)) as (YC & YW & YA & cy & dy & YG).
    split; [exact YC|]. split; [exact YW|]. split; [now rewrite (ol_holder _ _ _ _ _ OL)|].
    destruct YG as [C S AU (VE & PDA) (VHR & VHO) (PE & PO) (MO & mm & MD) (TP & TPO)
      (vt & LV & RV') (pt & LP & DP) (dt & o & LD & RD' & ND1 & ND2) (RW1 & RW2) AM CAPS PAY WR].
    destruct (ol_cfg _ _ _ _ _ OL cy) as (c' & C' & V' & B'); [now rewrite <- YC|]. rewrite <- YC in C'.
    exists c', dy. destruct (DY y I) as (ty & oy & L & EM & N1 & N2 & EV).
    pose proof (lr_own _ _ _ _ _ _ _ _ LR) as O.
    pose proof (EP x y (or_introl eq_refl) (or_intror I)) as EPT.
    assert (stake_of e w' (un_config (lv_accts y)) (un_stake (lv_accts y)) = Some dy) as S'.
    { rewrite YC in *. rewrite <- S. apply (ol_stakes _ _ _ _ _ OL). now apply NE. }
    assert (un_pool (lv_accts x) = un_pool (lv_accts y)) as EPO.
    { rewrite PE, (proj1 (gu_pool _ _ _ _ _ _ _ XG)). congruence. }
    assert (un_vault_pda (lv_accts x) = un_vault_pda (lv_accts y)) as EPD.
    { rewrite PDA, (proj2 (gu_vault _ _ _ _ _ _ _ XG)). congruence. }
    constructor; auto.
    + split; [congruence|auto].
    + split; [auto|]. now rewrite O.
    + split; [auto|]. now rewrite O.
    + split; [now rewrite O|]. exists mm. rewrite EM in *. now rewrite (lr_mint _ _ _ _ _ _ _ _ LR).
    + split; [auto|]. now rewrite O.
    + rewrite EM, EV, <- EPD in *. destruct (lr_vault _ _ _ _ _ _ _ _ LR _ LV) as (t' & L' & E'). exists t'. split; [exact L'|]. now rewrite E'.
    + rewrite EM, <- EPT, <- EPO in *. destruct (lr_ptok _ _ _ _ _ _ _ _ LR _ LP) as (t' & L' & E'). exists t'. split; [exact L'|].
      rewrite E'. pose proof (ol_deposit _ _ _ _ _ OL) as DE. rewrite YC in *. clear - DE DP. lia.
    + rewrite EM in LD. destruct (ol_tokens _ _ _ _ _ OL _ _ _ _ LD eq_refl N1 N2) as (t' & L' & E'). exists t', o. rewrite EM.
      split; [exact L'|]. split; [|auto]. rewrite E'. specialize (ER y (or_intror I)). unfold lv_dest in ER at 1.
      rewrite (liquid_tokens _ _ _ _ _ _ LD) in ER. cbn [leaving] in ER.
      assert (lv_amount y <= leaving l) as Y.
      { clear - I. induction l as [|z l IH]; [destruct I|]. destruct I as [->|I]; simpl; [lia|]. specialize (IH I). lia. }
      clear - ER Y. destruct (lv_dest x =? _); lia.
    + rewrite YC in *. rewrite (ol_holder _ _ _ _ _ OL), YA, since_same. simpl. split; reflexivity.
    + rewrite B'. exact AM.
    + assert (dat (get w' (un_stake (lv_accts y))) = dat (get w (un_stake (lv_accts y)))) as ->; [|exact CAPS].
      pose proof (stake_of_some _ _ _ _ _ S) as (SO & SD & _). apply (lr_dat _ _ _ _ _ _ _ _ LR).
      * rewrite XC, <- YC. intros X. rewrite X, (proj2 C) in SD. discriminate.
      * now apply NE.
      * intros X. destruct (gu_vhr _ _ _ _ _ _ _ XG) as [_ VO]. rewrite <- X, SO in VO. destruct (prog_ids _ OK) as (_ & _ & PR & _). congruence.
      * intros X. rewrite X, EPT, (proj1 (proj2 LP)) in SD. discriminate.
      * intros X. rewrite X, <- EV, (proj1 (proj2 LV)) in SD. discriminate.
      * intros X. destruct (gu_dest _ _ _ _ _ _ _ XG) as (tx & ox & LX & _). rewrite X, (proj1 (proj2 LX)) in SD. discriminate.
    + rewrite YC. eapply pays_each; eauto.
  - intros y z IY IZ. apply EP; now right.
  - intros y I. rewrite (TY y I). specialize (ER y (or_intror I)). cbn [leaving] in ER. clear - ER. destruct (lv_dest x =? _); lia.
Qed.
Lemma row_leaves e ck l w : env_ok e -> reachable e w -> settled_chain e w ck -> exits e w ck l ->
  exists w', in_a_row e (map lv_call l) w = Ok w' /\ everybody_left e ck l w w' /\
    (forall k m o t, liquid e w k m o t -> (forall x, In x l -> un_mint (lv_accts x) = m /\ k <> un_ptok (lv_accts x) /\ k <> un_vault (lv_accts x)) ->
      exists t', liquid e w' k m o t' /\ t_amount t' = t_amount t + leaving_to k l).
Proof.
  intros OK. revert w. induction l as [|x l IH]; intros w R SC EX.
  - exists w. split; [reflexivity|]. split.
    + constructor; try (intros; contradiction); auto; [eauto|cbn; lia|]. intros k. cbn. destruct (_ =? _); lia.
    + intros k m o t L _. exists t. split; [exact L|]. simpl. lia.
  - destruct (ex_each _ _ _ _ EX x (or_introl eq_refl)) as (XC & XW & XA & c & d & XG).
    destruct (leaver_goes e ck x w c d OK R SC XC XW XA XG) as (w1 & RUN & OL).
    pose proof (exits_next _ _ _ _ _ _ OK R EX OL) as EX1.
    destruct (IH w1 (ol_reach _ _ _ _ _ OL) (ol_open _ _ _ _ _ OL) EX1) as (w' & ROW & [E0 EC E1 E2 E3 E4 E5 E6] & TL).
    exists w'. unfold lv_call in RUN. cbn [fst snd] in RUN. cbn [map in_a_row]. unfold lv_call at 1. rewrite RUN, bind_Ok. split; [exact ROW|].
    pose proof (ex_distinct _ _ _ _ EX) as ND. simpl in ND. apply List.NoDup_cons_iff in ND as [NI ND].
    assert (forall y, In y l -> lv_stake y <> lv_stake x) as NE by (intros y I E; apply NI; rewrite <- E; now apply in_map).
    assert (forall k m o t, liquid e w k m o t -> (forall y, In y (x :: l) -> un_mint (lv_accts y) = m /\ k <> un_ptok (lv_accts y) /\ k <> un_vault (lv_accts y)) ->
      exists t', liquid e w' k m o t' /\ t_amount t' = t_amount t + leaving_to k (x :: l)) as TL'.
    { intros k m o t L H. destruct (H x (or_introl eq_refl)) as (<- & N1 & N2).
      destruct (ol_tokens _ _ _ _ _ OL _ _ _ _ L eq_refl N1 N2) as (t1 & L1 & A1).
      destruct (TL k _ o t1 L1) as (t2 & L2 & A2); [intros y I; apply H; now right|].
      exists t2. split; [exact L2|]. rewrite A2, A1. cbn [leaving_to]. lia. }
    split; [|exact TL']. constructor; auto.
    + intros c0 C0. destruct (ol_cfg _ _ _ _ _ OL c0 C0) as (c1 & C1 & V1 & B1). destruct (EC c1 C1) as (c2 & C2 & V2 & B2). exists c2. split; [exact C2|]. split; congruence.
    + destruct (ol_stake _ _ _ _ _ OL) as (d0 & d1 & S0 & S1 & Z1 & _).
      intros y [<-|I].
      * exists d0, d1. split; [exact S0|]. split; [|exact Z1]. rewrite (proj1 (E2 _ NI)). exact S1.
      * destruct (E1 y I) as (a & b & A & B & C). exists a, b. split; [|auto]. rewrite <- A. symmetry. apply (ol_stakes _ _ _ _ _ OL), NE, I.
    + intros k NK. simpl in NK. assert (k <> lv_stake x /\ ~ In k (map lv_stake l)) as [K1 K2] by (split; intros X; apply NK; auto).
      destruct (E2 k K2) as [-> ->]. split; [now apply (ol_stakes _ _ _ _ _ OL)|now apply (ol_oth _ _ _ _ _ OL)].
    + intros y [<-|I]; [|auto]. rewrite (proj2 (E2 _ NI)). exact (ol_self _ _ _ _ _ OL).
    + intros y I. destruct (ex_each _ _ _ _ EX y I) as (YC & _ & _ & cy & dy & YG).
      destruct (gu_dest _ _ _ _ _ _ _ YG) as (ty & oy & LD & RD & ND1 & ND2). destruct (gu_vtok _ _ _ _ _ _ _ YG) as (vy & LVy & _).
      destruct (gu_vault _ _ _ _ _ _ _ YG) as [VY _]. pose proof (gu_config _ _ _ _ _ _ _ YG) as [_ CY]. rewrite YC in CY.
      destruct (TL' (lv_dest y) (un_mint (lv_accts y)) oy ty LD) as (t' & L' & A').
      { intros z IZ. destruct (ex_each _ _ _ _ EX z IZ) as (ZC & _ & _ & cz & dz & ZG).
        destruct (gu_vault _ _ _ _ _ _ _ ZG) as [VZ _]. pose proof (gu_config _ _ _ _ _ _ _ ZG) as [_ CZ]. rewrite ZC in CZ.
        destruct (gu_vtok _ _ _ _ _ _ _ ZG) as (vz & LVz & _).
        assert (un_vault (lv_accts z) = un_vault (lv_accts y)) as EV by congruence.
        split; [|split].
        - destruct LVy as (_ & A & B & _). destruct LVz as (_ & A' & B' & _). rewrite EV in A'. rewrite A in A'. injection A' as ->. congruence.
        - rewrite (ex_pool _ _ _ _ EX z y IZ I). exact ND2.
        - rewrite EV. exact ND1. }
      unfold lv_dest in *. now rewrite (liquid_tokens _ _ _ _ _ _ LD), (liquid_tokens _ _ _ _ _ _ L').
    + cbn [leaving]. pose proof (ol_deposit _ _ _ _ _ OL). lia.
    + intros k. specialize (E6 k). pose proof (ol_lam _ _ _ _ _ OL k) as L. cbn [map sum_over].
      rewrite (sum_over_ext (pending e w1 ck) (pending e w ck)) in E6.
      2:{ intros z I. apply in_map_iff in I as (y & <- & I). apply (ol_oth _ _ _ _ _ OL), NE, I. }
      rewrite (sum_over_ext (share e w1 ck k) (share e w ck k)) in E6.
      2:{ intros z I. apply in_map_iff in I as (y & <- & I). unfold share.
          rewrite (ol_stakes _ _ _ _ _ OL _ (NE _ I)), (ol_oth _ _ _ _ _ OL _ (NE _ I)). reflexivity. }
      clear - E6 L. destruct (k =? ck); lia.
Qed.
Lemma exits_perm e w ck l l' : Permutation l l' -> exits e w ck l -> exits e w ck l'.
Proof.
  intros PM [A B C D E]. assert (forall x, In x l' -> In x l) as I by (intros x; apply Permutation_in; now symmetry).
  assert (leaving l = leaving l') as L by (clear - PM; induction PM; simpl; lia).
  assert (sum_over (pending e w ck) (map lv_stake l) = sum_over (pending e w ck) (map lv_stake l')) as SU by (clear - PM; induction PM; simpl; lia).
  constructor; auto.
  - eapply Permutation_NoDup; [apply Permutation_map; exact PM|exact B].
  - intros x X. rewrite <- L. auto.
  - now rewrite <- SU.
Qed.
(** Whatever the order, every unstake in the row goes through, every destination
    gets the tokens asked for, every authority the rewards pending for its stakes, and
    the stakes not in the row keep their tokens and their claims. *)
Theorem C92_run_on_the_tokens e ck l l' w : env_ok e -> reachable e w -> settled_chain e w ck -> lined_up e w ck l -> payable e w ck l ->
  Permutation l l' -> exists w', in_a_row e (map lv_call l') w = Ok w' /\ everybody_left e ck l' w w'.
Proof.
  intros OK R SC LU PY PM. pose proof (exits_of _ _ _ _ LU PY) as EX. destruct (row_leaves e ck l' w OK R SC (exits_perm _ _ _ _ _ PM EX)) as (w' & A & B & _). eauto.
Qed.
Print Assumptions C92_run_on_the_tokens.
(** With a deactivation cap of 100 percent, if everybody with tokens asks for all of
    them, all staked tokens are paid out and no effective stake is left. *)
Theorem C92_all_out e ck l w c : env_ok e -> reachable e w -> settled_chain e w ck -> lined_up e w ck l -> payable e w ck l -> config_at e w ck c ->
  (forall k d, stake_of e w ck k = Some d -> 0 < staked d -> exists x, In x l /\ lv_stake x = k /\ lv_amount x = staked d) ->
  exists w', in_a_row e (map lv_call l) w = Ok w' /\ everybody_left e ck l w w' /\
    (forall k d, stake_of e w' ck k = Some d -> staked d = 0) /\
    leaving l = sum_of e w ck staked /\
    (exists c', config_at e w' ck c' /\ cfg_effective c' = 0).
Proof.
  intros OK R SC LU PY C ALL. pose proof (exits_of _ _ _ _ LU PY) as EX. destruct (row_leaves e ck l w OK R SC EX) as (w' & ROW & EL & _). exists w'. split; [exact ROW|]. split; [exact EL|].
  assert (forall k d, stake_of e w' ck k = Some d -> staked d = 0) as Z.
  { intros k d S'. destruct (in_dec N.eq_dec k (map lv_stake l)) as [I|NI].
    - apply in_map_iff in I as (x & <- & I). destruct (el_stakes _ _ _ _ _ EL x I) as (d0 & d1 & S0 & S1 & Z1).
      rewrite S' in S1. injection S1 as <-. destruct (N.eq_dec (staked d0) 0) as [|NZ]; [lia|].
      destruct (ALL _ _ S0) as (y & IY & EY & AY); [lia|].
      assert (x = y) as <-; [|lia].
      pose proof (ex_distinct _ _ _ _ EX) as ND. clear - ND I IY EY. induction l as [|z l IH]; [destruct I|].
      simpl in ND. apply List.NoDup_cons_iff in ND as [NI ND]. destruct I as [->|I], IY as [->|IY]; auto.
      + exfalso. apply NI. rewrite <- EY. now apply in_map.
      + exfalso. apply NI. rewrite EY. now apply in_map.
    - rewrite (proj1 (el_others _ _ _ _ _ EL k NI)) in S'. destruct (N.eq_dec (staked d) 0) as [|NZ]; [auto|].
      destruct (ALL _ _ S') as (y & IY & EY & _); [lia|]. exfalso. apply NI. rewrite <- EY. now apply in_map. }
  split; [exact Z|].
  assert (sum_of e w' ck staked = 0) as SZ.
  { rewrite (sum_of_same e w' ck staked (fun d => 0 * staked d)); [now rewrite sum_of_scale|]. intros k d S. rewrite (Z _ _ S). reflexivity. }
  split.
  - pose proof (ex_distinct _ _ _ _ EX) as ND. apply NoDup_ListNoDup in ND.
    pose proof (sum_of_list e w w' ck staked (map lv_stake l) ND (fun k K => proj1 (el_others _ _ _ _ _ EL k K))) as SL.
    assert (sum_over (fun k => value staked (stake_of e w' ck k)) (map lv_stake l) = 0) as S0.
    { clear - Z. induction l as [|x l IH]; cbn [map sum_over]; [reflexivity|]. rewrite IH. unfold value.
      destruct (stake_of e w' ck (lv_stake x)) eqn:Q; [|reflexivity]. now rewrite (Z _ _ Q). }
    assert (sum_over (fun k => value staked (stake_of e w ck k)) (map lv_stake l) = leaving l) as S1.
    { pose proof (el_stakes _ _ _ _ _ EL) as ES. clear - ES Z. induction l as [|x l IH]; cbn [map sum_over leaving]; [reflexivity|].
      rewrite IH by (intros y I; apply ES; now right). destruct (ES x (or_introl eq_refl)) as (d & d' & A & B & E). rewrite A. cbn [value].
      rewrite (Z _ _ B) in E. lia. }
    lia.
  - pose proof (inv_reachable _ _ OK (el_reach _ _ _ _ _ EL)) as I.
    destruct (el_config _ _ _ _ _ EL c C) as (c' & C' & _). exists c'. split; [exact C'|].
    rewrite (C01_effective_total _ _ _ _ OK (el_reach _ _ _ _ _ EL) C').
    rewrite (sum_of_same e w' ck effective (fun d => 0 * effective d)); [now rewrite sum_of_scale|]. intros k d S.
    pose proof (Z _ _ S) as Zk. apply stake_of_some in S as (O & D & _). pose proof (i_caps _ _ I k O) as K.
    apply del_of_ok in D as [(v & D & <-)|(s & D & <-)]; rewrite D in K; simpl in K; lia.
Qed.
Print Assumptions C92_all_out.
(** The config can pay whatever happened since it was created, if what was there at
    the start covers its rent, what the vault authority still holds, and the rounding
    (see C18). *)
Theorem C92_after_any_history e cx a s au cd b sy du w0 w w' n l : env_ok e -> reachable e w0 ->
  step e w0 (Do cx (CInitializeConfig a s au cd b sy du)) w -> covered e (ic_config a) w w' n ->
  settled_chain e w' (ic_config a) -> (exists c, config_at e w' (ic_config a) c) -> lined_up e w' (ic_config a) l ->
  e_rent e CONFIG_LEN + lam (get w' (e_vault e (ic_config a))) + n / 10 ^ 18 <= funds e w (ic_config a) ->
  forall l', Permutation l l' -> exists v, in_a_row e (map lv_call l') w' = Ok v /\ everybody_left e (ic_config a) l' w' v.
Proof.
  intros OK R ST CV SC (c & C) LU F l' PM. pose proof (covered_reachable _ _ _ _ _ (reachable_step _ _ _ _ R ST) CV) as R'.
  eapply C92_run_on_the_tokens; eauto. unfold payable.
  pose proof (C18_solvency _ _ _ _ _ _ _ _ _ _ _ _ _ OK R ST CV) as K.
  pose proof (sum_over_sum_of e w' (ic_config a) (fun d => stake_claim w' (ic_config a) c d + holder_claim e w' (ic_config a) d) _ (lu_distinct _ _ _ _ LU)) as D.
  rewrite (sum_over_ext _ (pending e w' (ic_config a))) in D.
  - unfold claims in K. rewrite (proj2 C) in K. unfold funds in *. lia.
  - intros k _. unfold pending, value. rewrite (proj2 C). destruct (stake_of e w' (ic_config a) k); reflexivity.
Qed.
Print Assumptions C92_after_any_history.

(** *** Case: a validator and a staker with two stakes take everything out *)
Definition busy_story : list act := tl setup ++
  [Pay carol kcfg 1000000; harvest_val vote1 alice; init_sol nat2 vote2 bob 5000; move nat1 nat2 bob 800;
   Call (cx [gov] 0 None 0) (CUpdateConfig (UpdateConfigA kcfg gov) (MaxDeactivationBasisPoints 10000)); Pay carol kcfg 777777].
Definition busy : world := at_end (init_config :: busy_story).
Definition going (sk auth dst n : N) : leaver :=
  Leaver (cx [auth] 5000 None 0) (UnstakeA kcfg kpool kptok sk auth kvtok kpda kvhr kmint dst (e_token denv)) n.
Definition crowd : list leaver := [going kval1 alice atok 500; going ksol1 bob btok 1200; going ksol2 bob btok 800].
Definition listed_b (w : world) (ck : pubkey) (l : list leaver) : bool :=
  forallb (fun p : N * account => match stake_in denv ck (fst p) (snd p) with
    | Some d => (staked d =? 0) || existsb (fun x => (lv_stake x =? fst p) && (lv_amount x =? staked d)) l
    | None => true end) (map_to_list w).
Lemma listed_b_ok w ck l : listed_b w ck l = true ->
  forall k d, stake_of denv w ck k = Some d -> 0 < staked d -> exists x, In x l /\ lv_stake x = k /\ lv_amount x = staked d.
Proof.
  unfold listed_b. rewrite forallb_forall. intros H k d S P. unfold stake_of, get in S. destruct (w !! k) as [a|] eqn:E.
  - apply elem_of_map_to_list, elem_of_list_In, H in E. simpl in *. rewrite S in E. apply orb_true_iff in E as [E|E].
    + apply N.eqb_eq in E. lia.
    + apply existsb_exists in E as (x & I & E). apply andb_true_iff in E as [E1 E2]. apply N.eqb_eq in E1, E2. eauto.
  - exfalso. revert S. simpl. unfold stake_in. simpl. discriminate.
Qed.
Lemma busy_good_val : good_unstake denv (lv_ctx (going kval1 alice atok 500)) (lv_accts (going kval1 alice atok 500)) 500 busy
  (cfg_of busy kcfg) (v_del (val_of busy kval1)).
Proof.
  split; try (calcs; fail).
  - repeat split; try calc. vm_compute. intuition discriminate.
  - split; [vm_compute; reflexivity|]. exists (mint_of busy kmint). vm_compute. reflexivity.
  - exists (tok_of busy kvtok). split; [calcs|calc].
  - exists (tok_of busy kptok). split; [calcs|calc].
  - exists (tok_of busy atok), alice. split; [calcs|]. split; [calc|]. split; calc.
  - split; [|intros s D; exfalso; revert D; calc]. intros v D. change (un_stake _) with kval1 in D.
    assert (v = val_of busy kval1) as -> by (unfold val_of; now rewrite D). calc.
  - one_claim kval1.
  - in_list.
Qed.
Lemma busy_good_sol sk n : (sk = ksol1 /\ n = 1200) \/ (sk = ksol2 /\ n = 800) ->
  good_unstake denv (lv_ctx (going sk bob btok n)) (lv_accts (going sk bob btok n)) n busy (cfg_of busy kcfg) (s_del (sol_of busy sk)).
Proof.
  intros [[-> ->]|[-> ->]]; (split; try (calcs; fail);
  [ repeat split; try calc; vm_compute; intuition discriminate
  | split; [vm_compute; reflexivity|]; exists (mint_of busy kmint); vm_compute; reflexivity
  | exists (tok_of busy kvtok); split; [calcs|calc]
  | exists (tok_of busy kptok); split; [calcs|calc]
  | exists (tok_of busy btok), bob; split; [calcs|]; split; [calc|]; split; calc
  | split; [intros v D; exfalso; revert D; calc|]; intros s D;
    match type of D with dat (get _ (un_stake (lv_accts (going ?k _ _ _)))) = _ => change (dat (get busy k) = DSol s) in D;
      assert (s = sol_of busy k) as -> by (unfold sol_of; now rewrite D) end; calc
  | match goal with |- affordable _ _ _ (fun k => k = un_stake (lv_accts (going ?s _ _ _))) => one_claim s end
  | in_list ]).
Qed.
Example C92_case : reachable denv busy /\ settled_chain denv busy kcfg /\ lined_up denv busy kcfg crowd /\ payable denv busy kcfg crowd /\
  config_at denv busy kcfg (cfg_of busy kcfg) /\
  (forall k d, stake_of denv busy kcfg k = Some d -> 0 < staked d -> exists x, In x crowd /\ lv_stake x = k /\ lv_amount x = staked d) /\
  leaving crowd = 2500 /\ leaving_to btok crowd = 2000 /\
  covered denv kcfg (at_end [init_config]) busy 0 /\
  e_rent denv CONFIG_LEN + lam (get busy (e_vault denv kcfg)) + 0 / 10 ^ 18 <= funds denv (at_end [init_config]) kcfg /\
  map (pending denv busy kcfg) (map lv_stake crowd) = [155555; 373332; 248888].
Proof.
  split; [apply at_end_reachable; vm_compute; reflexivity|].
  split; [split; [exists (hold_of busy kvhr)|]; vm_compute; reflexivity|].
  split; [|split; [calc|split; [split; calc|split; [apply listed_b_ok; vm_compute; reflexivity|split; [calc|]; split; [calc|]; split; [|split; calc]]]]].
  2:{ replace 0 with (spent (allowance denv kcfg) busy_story) by (vm_compute; reflexivity). apply script_covered; vm_compute; reflexivity. }
  constructor.
  - intros x [<-|[<-|[<-|[]]]]; (split; [reflexivity|]; split; [apply ctx_ok_wf; vm_compute; reflexivity|]; split; [calc|]).
    + eexists _, _. apply busy_good_val.
    + eexists _, _. apply busy_good_sol. auto.
    + eexists _, _. apply busy_good_sol. auto.
  - apply NoDup_nodup_eq. vm_compute. reflexivity.
  - intros x y [<-|[<-|[<-|[]]]] [<-|[<-|[<-|[]]]]; reflexivity.
  - intros x [<-|[<-|[<-|[]]]]; calc.
Qed.
