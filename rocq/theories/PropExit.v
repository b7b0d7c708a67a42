(** C72: leaving by unstaking. *)
From Verif Require Import Base Types Layout Instr Math External Processor Runtime History Spec SpecReward SpecLive SpecExit
  WorldLemmas Arith Effects Handlers Inv Wf Sane Evolve Rewards Exit LiveTokens PropState PropTokens PropAuth PropLive Demo SpecLocal PropLocal.

Lemma liquid_tokens e w k m o t : liquid e w k m o t -> tokens e w k = t_amount t.
Proof. intros (O & D & _). unfold tokens. now rewrite O, N.eqb_refl, D. Qed.

(* the next unstake of the most that is allowed *)
Lemma next_good e cx a n w w' c d : env_ok e -> inv e w -> good_unstake e cx a n w c d ->
  c_pool_acc cx mod 2 ^ 128 = holder_acc e w (un_config a) -> left_ready e a n (c_now cx) w w' c d ->
  (forall t, dat (get w (un_vault a)) = DToken t -> t_amount t + staked d < 2 ^ 64) ->
  tokens e w (un_dest a) + staked d < 2 ^ 64 ->
  exists c' d', cfg_bps c' = cfg_bps c /\ stake_of e w' (un_config a) (un_stake a) = Some d' /\ staked d' = staked d - n /\
  let cx' := Ctx (c_signers cx) (c_writable cx) (sat_add64 (c_now cx) (cfg_cooldown c)) (c_view cx) (c_pool_acc cx) in
  (0 < staked d' * cfg_bps c' / 10000 -> good_unstake e cx' a (staked d' * cfg_bps c' / 10000) w' c' d') /\
  c_pool_acc cx' mod 2 ^ 128 = holder_acc e w' (un_config a) /\
  (forall t, dat (get w' (un_vault a)) = DToken t -> t_amount t + staked d' < 2 ^ 64) /\
  tokens e w' (un_dest a) = tokens e w (un_dest a) + n.
Proof.
  intros OK I G AC [O (c' & C' & V' & B' & K') (d' & S' & ST' & A' & CD') CAP MI VA PT DE (h & H' & HL & HD) P RE _] RV RD.
  destruct G as [C S (AU & SG & NAC & NAI) (VE & PDA) (VHR & VHO) (PE & PO) (MO & mm & MD) (TP & TPO)
    (vt & LV & RV') (pt & LP & DP) (dt & o & LD & RD' & ND1 & ND2) (RW1 & RW2) (N0 & NM & CD) CAPS PAY WR].
  destruct (VA _ LV) as (vt' & LV' & EV). destruct (PT _ LP) as (pt' & LP' & EP). destruct (DE _ _ LD) as (dt' & LD' & ED).
  assert (holder_acc e w' (un_config a) = holder_acc e w (un_config a)) as HA by (unfold holder_acc at 1; rewrite H'; exact HL).
  exists c', d'. split; [exact B'|]. split; [exact S'|]. split; [exact ST'|]. cbv zeta. cbn [c_pool_acc].
  split; [|split; [now rewrite HA|split]].
  - intros POS. set (m := staked d' * cfg_bps c' / 10000) in *.
    assert (cfg_bps c <= 10000) as BB.
    { apply (sane_cfg _ _ (i_sane _ _ I) _ _ C). }
    assert (m <= staked d') as MS. { unfold m. rewrite B'. apply N.div_le_upper_bound; [lia|]. clear - BB. nia. }
    assert (staked d' <= staked d) as SS by (rewrite ST'; clear; lia).
    constructor; auto.
    + split; [congruence|]. split; [exact SG|auto].
    + split; [congruence|auto].
    + split; [auto|]. now rewrite O.
    + split; [auto|]. now rewrite O.
    + split; [now rewrite O|]. exists mm. now rewrite MI.
    + split; [auto|]. now rewrite O.
    + exists vt'. split; [exact LV'|]. rewrite EV. specialize (RV _ (proj1 (proj2 LV))). clear - RV MS SS. lia.
    + exists pt'. split; [exact LP'|]. unfold deposit at 1. rewrite H', EP, HD. clear - DP. lia.
    + exists dt', o. split; [exact LD'|]. split; [|auto]. rewrite ED. rewrite (liquid_tokens _ _ _ _ _ _ LD) in RD.
      assert (n + m <= staked d) as X.
      { assert (n <= staked d); [|clear - H MS ST'; lia]. clear - NM BB. assert (staked d * cfg_bps c / 10000 <= staked d); [|lia].
        apply N.div_le_upper_bound; [lia|]. nia. }
      clear - RD X. lia.
    + cbn [c_pool_acc]. rewrite AC, HA. rewrite since_same. simpl. split; reflexivity.
    + split; [exact POS|]. split; [apply N.le_refl|]. cbn [c_now]. rewrite CD'. apply N.le_refl.
    + exists [un_stake a]. split; [apply NoDup_singleton|]. split; [intros k ->; now left|].
      cbn [sum_over]. rewrite P. clear - RE. lia.
  - intros t T. assert (t = vt') as -> by (destruct LV' as (_ & T' & _); congruence). rewrite EV.
    specialize (RV _ (proj1 (proj2 LV))). rewrite ST'. clear - RV. lia.
  - rewrite (liquid_tokens _ _ _ _ _ _ LD'), (liquid_tokens _ _ _ _ _ _ LD). exact ED.
Qed.

(** Unstaking the most that is allowed again and again (waiting for the cooldown
    in between) leaves less than the cap's resolution, and everything else is at
    the destination.  Nobody's help is needed. *)
Theorem C72_down_to_dust e cx a w c d : env_ok e -> reachable e w -> wf_ctx e cx -> settled_chain e w (un_config a) ->
  good_unstake e cx a (staked d * cfg_bps c / 10000) w c d ->
  c_pool_acc cx mod 2 ^ 128 = holder_acc e w (un_config a) ->
  (forall t, dat (get w (un_vault a)) = DToken t -> t_amount t + staked d < 2 ^ 64) ->
  tokens e w (un_dest a) + staked d < 2 ^ 64 ->
  exists w' d', unstakes e a (c_signers cx) w w' /\ stake_of e w' (un_config a) (un_stake a) = Some d' /\
    staked d' * cfg_bps c < 10000 /\ tokens e w' (un_dest a) + staked d' = tokens e w (un_dest a) + staked d.
Proof.
  intros OK. remember (staked d) as z eqn:Z. revert cx w c d Z. induction z as [z IH] using (well_founded_induction N.lt_wf_0).
  intros cx w c d Z R WC SC G AC RV RD. set (n := z * cfg_bps c / 10000) in *.
  pose proof (inv_reachable _ _ OK R) as I.
  assert (c_now cx < U64) as NOW by apply WC.
  destruct (unstake_goes e cx a n w c d OK I SC G NOW) as [w1 RUN].
  pose proof (unstake_leaves e cx a n w w1 c d OK I G AC RUN) as LR.
  pose proof G as G0. destruct G0 as [C S _ _ _ _ _ _ _ _ _ _ (N0 & NM & _) _ _ _].
  assert (n <= z) as NZ.
  { pose proof (C16_bps e w _ c OK R C) as BB. unfold n. apply N.div_le_upper_bound; [lia|]. clear - BB. nia. }
  assert (z < U64) as ZB. { clear - RD. lia. }
  assert (step e w (Do cx (CUnstakeTokens a n)) w1) as ST.
  { constructor; auto. simpl. clear - NZ ZB. lia. }
  pose proof (reachable_step _ _ _ _ R ST) as R1.
  assert (settled_chain e w1 (un_config a)) as SC1.
  { split; [destruct (lr_holder _ _ _ _ _ _ _ _ LR) as (h & H & _); eauto|].
    apply run_ok in RUN as (_ & _ & T & _). rewrite T. apply SC. }
  rewrite Z in RV, RD.
  destruct (next_good e cx a n w w1 c d OK I G AC LR RV RD) as (c1 & d1 & B1 & S1 & Z1 & G1 & AC1 & RV1 & T1).
  set (cx1 := Ctx _ _ _ _ _) in *.
  destruct (N.eq_dec (staked d1 * cfg_bps c1 / 10000) 0) as [E|E].
  - exists w1, d1. split; [econstructor 2; [reflexivity|exact ST|constructor]|]. split; [exact S1|].
    split; [|clear - T1 Z1 Z NZ; lia]. rewrite <- B1. apply N.div_small_iff in E; [exact E|lia].
  - assert (staked d1 < z) as LT by (clear - Z1 Z N0 NZ; lia).
    assert (wf_ctx e cx1) as WC1.
    { destruct WC as (W1 & _ & W3). split; [exact W1|]. split; [apply sat_add64_lt|exact W3]. }
    destruct (IH _ LT cx1 w1 c1 d1 eq_refl R1 WC1 SC1 (G1 (proj1 (N.neq_0_lt_0 _) E)) AC1 RV1) as (w2 & d2 & U2 & S2 & D2 & T2).
    { rewrite T1, Z1. clear - RD NZ Z. lia. }
    exists w2, d2. split; [econstructor 2; [reflexivity|exact ST|exact U2]|]. split; [exact S2|].
    split; [now rewrite <- B1|]. clear - T1 T2 Z1 Z NZ. lia.
Qed.
Print Assumptions C72_down_to_dust.

(** With a cap of 100 percent that is everything. *)
Theorem C72_full_exit e cx a w c d : env_ok e -> reachable e w -> wf_ctx e cx -> settled_chain e w (un_config a) ->
  good_unstake e cx a (staked d) w c d -> cfg_bps c = 10000 ->
  c_pool_acc cx mod 2 ^ 128 = holder_acc e w (un_config a) ->
  exists w' d', step e w (Do cx (CUnstakeTokens a (staked d))) w' /\ stake_of e w' (un_config a) (un_stake a) = Some d' /\
    staked d' = 0 /\ tokens e w' (un_dest a) = tokens e w (un_dest a) + staked d.
Proof.
  intros OK R WC SC G B AC. pose proof (inv_reachable _ _ OK R) as I. assert (c_now cx < U64) as NOW by apply WC.
  destruct (unstake_goes e cx a _ w c d OK I SC G NOW) as [w1 RUN].
  destruct (unstake_leaves e cx a _ w w1 c d OK I G AC RUN) as [_ _ (d1 & S1 & Z1 & _) _ _ _ _ DE _ _ _ _].
  destruct (gu_dest _ _ _ _ _ _ _ G) as (t & o & L & RM & _). destruct (DE _ _ L) as (t' & L' & T').
  exists w1, d1. split; [constructor; auto; simpl; clear - RM; lia|]. split; [exact S1|].
  split; [rewrite Z1; apply N.sub_diag|]. now rewrite (liquid_tokens _ _ _ _ _ _ L'), (liquid_tokens _ _ _ _ _ _ L).
Qed.
Print Assumptions C72_full_exit.

(** Below 100 percent the last tokens cannot be unstaked at all ... *)
Theorem C72_dust_stuck e cx a n w w' c d : env_ok e -> run e cx (CUnstakeTokens a n) w = Ok w' ->
  config_at e w (un_config a) c -> stake_of e w (un_config a) (un_stake a) = Some d ->
  staked d * cfg_bps c < 10000 -> n = 0.
Proof.
  intros OK RUN C S B. destruct (C10_unstake_limits _ _ _ _ _ _ OK RUN) as (c1 & d1 & _ & C1 & S1 & _ & _ & L & _).
  assert (c1 = c) as -> by (destruct C as [_ C], C1 as [_ C1]; congruence).
  assert (d1 = d) as -> by congruence.
  rewrite (N.div_small _ _ B) in L. clear - L. lia.
Qed.
Print Assumptions C72_dust_stuck.


(** ... so that, whatever anybody does, a stake that is neither slashed nor moved
    away never becomes empty again. *)
Theorem C72_never_empty e ck k w w' d : env_ok e -> reachable e w -> stretch e (only_unstaked e ck k) w w' ->
  stake_of e w ck k = Some d -> 0 < staked d -> exists d', stake_of e w' ck k = Some d' /\ 0 < staked d'.
Proof.
  intros OK R T S P. assert (reachable e w' /\ exists d', stake_of e w' ck k = Some d' /\ 0 < staked d') as [_ X]; [|exact X].
  induction T as [w|w w1 ev w2 T IH O ST]; [eauto|]. destruct (IH R S) as (R1 & d1 & S1 & P1).
  split; [eapply reachable_step; eauto|]. inversion ST as [? cx c ? WC WL RUN|? ? RL]; subst.
  - destruct (C12_stake_stays _ _ _ _ _ _ _ _ OK R1 RUN S1) as (d2 & S2). exists d2. split; [exact S2|].
    destruct (N.lt_ge_cases (staked d2) (staked d1)) as [L|L]; [|clear - L P1; lia].
    pose proof (C12_stake_reduction _ _ _ _ _ _ _ _ _ OK R1 RUN S1 S2 L) as X.
    destruct c as [| | | | | | | | | | |a n| | | |]; try contradiction; simpl in O;
      try (destruct X as [X _]; now subst).
    destruct X as [-> _].
    destruct (C10_unstake_limits _ _ _ _ _ _ OK RUN) as (c & d0 & _ & C & S3 & _ & _ & LM & _).
    destruct (stake_of_some _ _ _ _ _ S3) as (_ & _ & B3). destruct (stake_of_some _ _ _ _ _ S1) as (_ & _ & B1).
    pose proof (belongs_unique _ _ _ _ _ OK B3 B1) as E. rewrite E in *.
    assert (d0 = d1) as -> by congruence.
    destruct (C06_unstake_exact _ _ _ _ _ _ OK R1 RUN) as (d3 & d4 & S5 & S6 & EX & _). rewrite E in S5, S6.
    assert (d3 = d1) as -> by congruence. assert (d4 = d2) as -> by congruence.
    specialize (O eq_refl c C).
    assert (n < staked d1); [|clear - EX H; lia].
    eapply N.le_lt_trans; [exact LM|]. apply N.div_lt_upper_bound; [lia|]. clear - O P1. nia.
  - exists d1. split; [|exact P1]. destruct (stake_of_some _ _ _ _ _ S1) as (O1 & D1 & B1).
    destruct (rely_kept _ _ _ _ RL O1) as (O2 & D2 & _); [intros [m Z]; rewrite Z in B1; destruct B1|]. apply stake_of_intro; [exact O2| |]; rewrite D2; auto.
Qed.
Print Assumptions C72_never_empty.

(* Bob has 800 staked and may unstake half at a time. *)
Definition leave_accts := UnstakeA kcfg kpool kptok ksol2 bob kvtok kpda kvhr kmint btok (e_token denv).
Definition leave_call (n now : N) : act := Call (cx [bob] now None (5 * 10 ^ 18)) (CUnstakeTokens leave_accts n).
Definition leave_story : list act := firstn 14 story ++
  [leave_call 400 5000; leave_call 200 6000; leave_call 100 7000; leave_call 50 8000; leave_call 25 9000;
   leave_call 12 10000; leave_call 6 11000; leave_call 3 12000; leave_call 2 13000; leave_call 1 14000].
Ltac leave_good w := split; try (calcs; fail);
  [ repeat split; try calc; vm_compute; intuition discriminate
  | split; [vm_compute; reflexivity|]; exists (mint_of w kmint); vm_compute; reflexivity
  | exists (tok_of w kvtok); split; [calcs|calc]
  | exists (tok_of w kptok); split; [calcs|calc]
  | exists (tok_of w btok), bob; split; [calcs|]; split; [calc|]; split; calc
  | split; [intros v D; exfalso; revert D; calc|]; intros s D; change (un_stake _) with ksol2 in D;
    assert (s = sol_of w ksol2) as -> by (unfold sol_of; now rewrite D); calc
  | one_claim ksol2
  | in_list ].
Example C72_case : let w := at_end (firstn 14 story) in
  let x := cx [bob] 5000 None (5 * 10 ^ 18) in
  let c := cfg_of w kcfg in let d := s_del (sol_of w ksol2) in
  reachable denv w /\ wf_ctx denv x /\ settled_chain denv w kcfg /\
  good_unstake denv x leave_accts (staked d * cfg_bps c / 10000) w c d /\ staked d = 800 /\ cfg_bps c = 5000 /\
  c_pool_acc x mod 2 ^ 128 = holder_acc denv w kcfg /\
  (forall t, dat (get w kvtok) = DToken t -> t_amount t + staked d < 2 ^ 64) /\
  tokens denv w btok + staked d < 2 ^ 64.
Proof.
  cbv zeta. set (w := at_end (firstn 14 story)).
  split; [apply at_end_reachable; vm_compute; reflexivity|]. split; [apply ctx_ok_wf; vm_compute; reflexivity|].
  split; [split; [exists (hold_of w kvhr)|]; vm_compute; reflexivity|].
  split; [|split; [vm_compute; reflexivity|split; [vm_compute; reflexivity|split; [vm_compute; reflexivity|split]]]].
  - leave_good w.
  - intros t T. assert (t = tok_of w kvtok) as -> by (unfold tok_of; now rewrite T). calc.
  - calc.
Qed.
(* Governance raises the cap to 100 percent: Bob can leave at once. *)
Definition whole_story : list act := firstn 14 story ++
  [Call (cx [gov] 0 None 0) (CUpdateConfig (UpdateConfigA kcfg gov) (MaxDeactivationBasisPoints 10000))].
Example C72_full_case : let w := at_end whole_story in
  let x := cx [bob] 5000 None (5 * 10 ^ 18) in
  let c := cfg_of w kcfg in let d := s_del (sol_of w ksol2) in
  reachable denv w /\ wf_ctx denv x /\ settled_chain denv w kcfg /\ good_unstake denv x leave_accts (staked d) w c d /\
  staked d = 800 /\ cfg_bps c = 10000 /\ c_pool_acc x mod 2 ^ 128 = holder_acc denv w kcfg.
Proof.
  cbv zeta. set (w := at_end whole_story).
  split; [apply at_end_reachable; vm_compute; reflexivity|]. split; [apply ctx_ok_wf; vm_compute; reflexivity|].
  split; [split; [exists (hold_of w kvhr)|]; vm_compute; reflexivity|].
  split; [|split; [vm_compute; reflexivity|split; vm_compute; reflexivity]]. leave_good w.
Qed.
(* The same stake at the end of [leave_story]: one token is left, which only an unstake of nothing
   leaves alone. *)
Example C72_dust_case : let w := at_end leave_story in
  reachable denv w /\ config_at denv w kcfg (cfg_of w kcfg) /\
  stake_of denv w kcfg ksol2 = Some (s_del (sol_of w ksol2)) /\ staked (s_del (sol_of w ksol2)) = 1 /\
  staked (s_del (sol_of w ksol2)) * cfg_bps (cfg_of w kcfg) < 10000 /\
  succeeds (run denv (cx [bob] 15000 None (5 * 10 ^ 18)) (CUnstakeTokens leave_accts 0) w) = true.
Proof.
  cbv zeta. split; [apply at_end_reachable; vm_compute; reflexivity|].
  split; [split; vm_compute; reflexivity|]. repeat (split; [vm_compute; reflexivity|]). vm_compute. reflexivity.
Qed.
(* A stretch as in [C72_never_empty], of two unstakes. *)
Example C72_stretch_case : let w := at_end (firstn 14 story) in let w' := at_end (firstn 16 leave_story) in
  stretch denv (only_unstaked denv kcfg ksol2) w w' /\ stake_of denv w kcfg ksol2 = Some (s_del (sol_of w ksol2)) /\
  staked (s_del (sol_of w ksol2)) = 800 /\ staked (s_del (sol_of w' ksol2)) = 200.
Proof.
  cbv zeta. split; [|split; [vm_compute; reflexivity|split; vm_compute; reflexivity]].
  assert (forall l n now, cfg_bps (cfg_of (at_end l) kcfg) < 10000 ->
    only_unstaked denv kcfg ksol2 (at_end l) (event_of (leave_call n now))) as O.
  { intros l n now B _ c [_ C]. unfold cfg_of in B. rewrite C in B. exact B. }
  eapply stretch_more; [eapply stretch_more; [apply stretch_none| |]| |].
  - apply (O (firstn 14 story) 400 5000); vm_compute; reflexivity.
  - apply (at_end_step (firstn 14 story)). vm_compute. reflexivity.
  - apply (O (firstn 15 leave_story) 200 6000); vm_compute; reflexivity.
  - apply (at_end_step (firstn 15 leave_story)). vm_compute. reflexivity.
Qed.
