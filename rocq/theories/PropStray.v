(** C94: where the holder rewards of a config go. *)
From Verif Require Import Base Types Layout Instr Math External Processor Runtime History Spec SpecReward SpecShare SpecHolder SpecDust SpecStray
  WorldLemmas Effects Handlers Evolve Sane Wf Totals Arith Nets Caps Stakers Deposits Inv Life Tokens Gov Flow
  Rewards Collect Pays Progress Live Demo PropState PropTokens PropAuth PropReward SpecSolvency Solvency PropShare PropHolder PropSolvency PropDust.
Local Open Scope N_scope.

(** What the accounts show after a step, valued with the accumulator before it. *)
Definition settled_sum (e : env) (ck : pubkey) (w w' : world) : N :=
  sum_of e w' ck (fun d => since (holder_acc e w ck) (last_holder d) * staked d).
Lemma advance_upper e ck w w' : holder_credits e w' ck <= settled_sum e ck w w' + advance e ck w w' * sum_of e w' ck staked.
Proof.
  unfold holder_credits, settled_sum, advance. rewrite <- sum_of_scale, <- sum_of_add. apply sum_of_mono. intros d.
  pose proof (since_triangle (holder_acc e w' ck) (holder_acc e w ck) (last_holder d)) as T.
  set (s1 := since _ _) in *. set (s2 := since _ _) in *. set (s3 := since (holder_acc e w ck) (last_holder d)) in *.
  clearbody s1 s2 s3. nia.
Qed.
Lemma advance_exact e ck w w' : (forall k d, stake_of e w' ck k = Some d -> holder_in_range e ck w w' d) ->
  holder_credits e w' ck = settled_sum e ck w w' + advance e ck w w' * sum_of e w' ck staked.
Proof.
  intros H. unfold holder_credits, settled_sum. rewrite <- sum_of_scale, <- sum_of_add. apply sum_of_same. intros k d S.
  specialize (H k d S). unfold holder_in_range, advance in *. rewrite (since_sum _ _ _ H). lia.
Qed.
(** Settling the accounts [ks]. *)
Lemma holder_cleared e ck w w' ks : NoDup ks ->
  (forall k, In k ks -> exists d', stake_of e w' ck k = Some d' /\ last_holder d' = holder_acc e w ck) ->
  (forall k, ~ In k ks -> stake_of e w' ck k = stake_of e w ck k) ->
  10 ^ 18 * sum_over (holder_claim_of e w ck) ks + settled_sum e ck w w' <= holder_credits e w ck /\
  holder_credits e w ck <= 10 ^ 18 * sum_over (holder_claim_of e w ck) ks + settled_sum e ck w w' + 10 ^ 18 * N.of_nat (length ks).
Proof.
  intros ND CI CO. set (g := fun d => since (holder_acc e w ck) (last_holder d) * staked d).
  pose proof (sum_of_list e w w' ck g ks ND CO) as S.
  assert (sum_over (fun k => value g (stake_of e w' ck k)) ks = 0) as Z.
  { assert (forall l, (forall k, In k l -> In k ks) -> sum_over (fun k => value g (stake_of e w' ck k)) l = 0) as Y; [|apply Y; auto].
    induction l as [|k l IH]; intros SB; cbn [sum_over]; [auto|]. rewrite IH by (intros; apply SB; now right).
    destruct (CI k (SB k (or_introl eq_refl))) as (d' & S' & L). rewrite S'. cbn [value]. unfold g. rewrite L, since_same. lia. }
  rewrite Z, N.add_0_r in S. change (settled_sum e ck w w') with (sum_of e w' ck g). change (holder_credits e w ck) with (sum_of e w ck g).
  rewrite <- S, <- sum_over_scale.
  assert (forall k, 10 ^ 18 * holder_claim_of e w ck k <= value g (stake_of e w ck k) /\
    value g (stake_of e w ck k) < 10 ^ 18 * holder_claim_of e w ck k + 10 ^ 18) as B.
  { intros k. unfold holder_claim_of. destruct (stake_of e w ck k) as [d|]; cbn [value]; [|lia]. unfold holder_claim, g.
    set (y := since _ _ * _). clearbody y. pose proof (N.mul_div_le y (10 ^ 18) ltac:(lia)). pose proof (N.mul_succ_div_gt y (10 ^ 18) ltac:(lia)). lia. }
  split.
  - rewrite N.add_comm. apply N.add_le_mono_l. apply sum_over_le. intros k _. apply B.
  - pose proof (sum_over_bounds (fun k => 10 ^ 18 * holder_claim_of e w ck k) (fun k => value g (stake_of e w ck k)) ks (10 ^ 18) (fun k _ => proj2 (B k))). lia.
Qed.
(** Other events leave everything as it was. *)
Lemma holder_quiet e ck w ev w' : env_ok e -> reachable e w -> step e w ev w' ->
  (forall cx c, ev = Do cx c -> ~ distributes ck c) -> settled_sum e ck w w' = holder_credits e w ck.
Proof.
  intros OK R ST ND. unfold settled_sum, holder_credits. destruct ST as [w cx cl w' WC CL RUN|w w' RL].
  - specialize (ND cx cl eq_refl). rewrite distributes_syncs in ND. destruct (N.eq_dec (call_config cl) ck) as [<-|NE].
    + destruct (syncs cl) eqn:Y; [exfalso; auto|]. pose proof (i_sane _ _ (inv_reachable _ _ OK R)) as SA.
      apply run_ok in RUN as (_ & D & _). destruct D; try discriminate; cbn [call_config].
      * apply sum_of_eq. eapply stake_of_created_config; eauto.
      * destruct (stake_of_created_val _ _ _ _ _ OK H) as ((d0 & SD & Z1 & Z2 & O) & RR).
        eapply sum_of_created; eauto. cbv beta. rewrite Z1. lia.
      * destruct H. subst w'. apply sum_of_eq. intros k. unfold stake_of, stake_in. ws.
        destruct (N.eqb_spec (sa_account a) k) as [<-|]; auto. rewrite Hc. now destruct (_ =? _).
      * destruct H. subst w'. apply sum_of_eq. intros k. unfold stake_of, stake_in. ws.
        destruct (N.eqb_spec (uc_config a) k) as [<-|]; auto. rewrite Hc. now destruct (_ =? _).
      * destruct (stake_of_created_sol _ _ _ _ _ OK H) as ((d0 & SD & Z1 & Z2 & O) & RR).
        eapply sum_of_created; eauto. cbv beta. rewrite Z1. lia.
      * destruct H. subst w'. apply sum_of_ext. intros k. unfold put_del, stake_of, stake_in. ws.
        destruct (N.eqb_spec (sy_stake a) k) as [<-|]; auto. rewrite Hv. cbn. repeat (destruct (_ =? _)); reflexivity.
    + destruct (isolated_run _ _ _ _ _ ck OK R RUN (not_eq_sym NE)) as (SO & _). now apply sum_of_eq.
  - apply sum_of_eq. intros k. now rewrite (rely_stake_of _ _ _ RL).
Qed.
(** Deposits follow the tokens staked and unstaked. *)
Lemma deposit_moves e ck w ev w' : env_ok e -> reachable e w -> step e w ev w' ->
  deposit e w' ck + unstaked_in ck w ev = deposit e w ck + staked_in ck w ev.
Proof.
  intros OK R ST. pose proof (inv_reachable _ _ OK R) as I. destruct ST as [w cx c w' WC WL RN|w w' RL].
  - apply run_ok in RN as (_ & D & _). pose proof (deposit_did _ _ _ _ _ ck OK (i_sane _ _ I) (i_wf _ _ I) (i_backed _ _ I ck) D) as A.
    destruct c; cbn [stake_removed stake_added unstaked_in staked_in] in *; try exact A; rewrite N.eqb_sym; exact A.
  - cbn. now rewrite (deposit_rely _ _ _ ck RL).
Qed.
Lemma hbooks_reachable e ck ok w0 w t : reachable e w0 -> holder_books e ck ok w0 w t -> reachable e w.
Proof. intros R. induction 1; auto; eapply reachable_step; eauto. Qed.

(** One step. *)
Lemma line_step e ck w ev w' ks : env_ok e -> reachable e w -> step e w ev w' ->
  (forall cx c, ev = Do cx c -> keeper_in c <> Some ck) ->
  List.NoDup ks -> (forall k, In k ks <-> settled_by e ck w ev k) ->
  let t := line_of e ck w ev w' ks in
  10 ^ 18 * paid t + holder_credits e w' ck + stray t <= holder_credits e w ck + 10 ^ 18 * (received t + advances t) + early t /\
  ((forall k d, stake_of e w' ck k = Some d -> holder_in_range e ck w w' d) ->
   holder_credits e w ck + 10 ^ 18 * received t + early t <= 10 ^ 18 * (paid t + payments t) + holder_credits e w' ck + stray t).
Proof.
  intros OK R ST NK ND IFF t.
  assert (10 ^ 18 * paid t + settled_sum e ck w w' <= holder_credits e w ck /\
    holder_credits e w ck <= 10 ^ 18 * paid t + settled_sum e ck w w' + 10 ^ 18 * payments t) as [C1 C2].
  { assert ((exists cx c, ev = Do cx c /\ distributes ck c) \/ (forall cx c, ev = Do cx c -> ~ distributes ck c)) as [(cx & c & -> & DI)|Q].
    { destruct ev as [cx c|]; [|right; discriminate].
      assert (distributes ck c \/ ~ distributes ck c) as [DI|NDI].
      { rewrite distributes_syncs. destruct (syncs c), (N.eq_dec (call_config c) ck); intuition congruence. }
      - left. eauto.
      - right. intros cx0 c0 [= <- <-]. exact NDI. }
    - inversion ST as [? ? ? ? WC CL RUN|]; subst. specialize (NK cx c eq_refl). apply holder_cleared.
      + now apply NoDup_ListNoDup.
      + intros k K. apply IFF in K. exact (run_cleared_holder _ _ _ _ _ _ OK R RUN DI NK k K).
      + intros k K. apply (run_cleared _ _ _ _ _ _ OK R RUN DI NK). intros X. apply K. now apply IFF.
    - rewrite (holder_quiet _ _ _ _ _ OK R ST Q). assert (ks = []) as E.
      { destruct ks as [|k ks]; [auto|]. exfalso. pose proof (proj1 (IFF k) (or_introl eq_refl)) as SB.
        destruct ev as [cx c|]; [|exact SB]. destruct SB as [SB _]. exact (Q cx c eq_refl SB). }
      subst t ks. cbn [line_of paid payments sum_over length]. lia. }
  pose proof (deposit_moves e ck w ev w' OK R ST) as DM.
  pose proof (i_backed _ _ (inv_reachable _ _ OK (reachable_step _ _ _ _ R ST)) ck) as BK.
  assert (advance e ck w w' * sum_of e w' ck staked + stray t = advance e ck w w' * deposit e w ck + early t) as EQ.
  { subst t. cbn [line_of stray early]. unfold orphaned. rewrite <- !N.mul_add_distr_l. f_equal. lia. }
  assert (10 ^ 18 * received t <= advance e ck w w' * deposit e w ck /\
    advance e ck w w' * deposit e w ck <= 10 ^ 18 * (received t + advances t)) as [R1 R2].
  { subst t. cbn [line_of received advances]. destruct (N.eqb_spec (advance e ck w w') 0) as [Z|Z].
    - rewrite Z, N.mul_0_l. cbn. lia.
    - set (y := advance e ck w w' * deposit e w ck). clearbody y.
      pose proof (N.mul_div_le y (10 ^ 18) ltac:(lia)). pose proof (N.mul_succ_div_gt y (10 ^ 18) ltac:(lia)). lia. }
  split.
  - pose proof (advance_upper e ck w w') as U. clear - C1 U EQ R2. clearbody t. lia.
  - intros IR. pose proof (advance_exact e ck w w' IR) as U. clear - C2 U EQ R1. clearbody t. lia.
Qed.

Lemma hbooks_credits e ck ok w0 w t : env_ok e -> reachable e w0 -> holder_books e ck ok w0 w t ->
  10 ^ 18 * paid t + holder_credits e w ck + stray t <= holder_credits e w0 ck + 10 ^ 18 * (received t + advances t) + early t /\
  ((forall w w' d, ok w w' d -> holder_in_range e ck w w' d) ->
   holder_credits e w0 ck + 10 ^ 18 * received t + early t <= 10 ^ 18 * (paid t + payments t) + holder_credits e w ck + stray t).
Proof.
  intros OK R0 B. induction B as [|w t ev w' ks B [IU IL] ST NK ND IFF O].
  { cbn. split; intros; lia. }
  pose proof (hbooks_reachable _ _ _ _ _ _ R0 B) as R.
  destruct (line_step e ck w ev w' ks OK R ST NK ND IFF) as [U L]. cbn [add_line received paid early stray advances payments].
  set (s := line_of e ck w ev w' ks) in *. clearbody s. split.
  - clear - IU U. lia.
  - intros IR. specialize (IL IR). specialize (L (fun k d S => IR _ _ _ (O k d S))). clear - IL L. lia.
Qed.
Lemma claims_credits e w ck : 10 ^ 18 * holder_claims e w ck <= holder_credits e w ck /\
  holder_credits e w ck <= 10 ^ 18 * (holder_claims e w ck + stakers e w ck).
Proof.
  unfold holder_claims, holder_credits, stakers. rewrite <- sum_of_add, <- !sum_of_scale. split; apply sum_of_mono; intros d; unfold holder_claim;
    set (y := since _ _ * _); clearbody y; pose proof (N.mul_div_le y (10 ^ 18) ltac:(lia));
    pose proof (N.mul_succ_div_gt y (10 ^ 18) ltac:(lia)); lia.
Qed.

(** Over any stretch of history, the holder rewards paid to the stake accounts, those they
    can claim now and those that went astray are no more than what was owed at the start,
    what the pool paid (plus its rounding) and what was credited early. *)
Theorem C94_no_more e ck ok w0 w t : env_ok e -> reachable e w0 -> holder_books e ck ok w0 w t ->
  10 ^ 18 * (paid t + holder_claims e w ck) + stray t <=
    holder_credits e w0 ck + 10 ^ 18 * (received t + advances t) + early t.
Proof.
  intros OK R B. destruct (hbooks_credits _ _ _ _ _ _ OK R B) as [U _]. destruct (claims_credits e w ck) as [C _]. clear - U C. lia.
Qed.
Print Assumptions C94_no_more.
(** And they are less only by under a lamport for each payment and each claim. *)
Theorem C94_no_less e ck w0 w t : env_ok e -> reachable e w0 -> holder_books e ck (holder_in_range e ck) w0 w t ->
  holder_credits e w0 ck + 10 ^ 18 * received t + early t <=
    10 ^ 18 * (paid t + holder_claims e w ck) + stray t + 10 ^ 18 * (payments t + stakers e w ck).
Proof.
  intros OK R B. destruct (hbooks_credits _ _ _ _ _ _ OK R B) as [_ L]. specialize (L (fun _ _ _ H => H)).
  destruct (claims_credits e w ck) as [_ C]. clear - L C. lia.
Qed.
Print Assumptions C94_no_less.
(** Every history in which no keeper payment goes to the config has such books. *)
Theorem C94_every_history e ck w0 w : env_ok e -> reachable e w0 -> keeperless e ck w0 w ->
  exists t, holder_books e ck (fun _ _ _ => True) w0 w t.
Proof.
  intros OK R0 P. induction P as [|w ev w' P IH ST NK]; [eexists; apply hbooks_start|].
  destruct IH as (t & B). pose proof (hbooks_reachable _ _ _ _ _ _ R0 B) as R.
  assert (exists ks, List.NoDup ks /\ forall k, In k ks <-> settled_by e ck w ev k) as (ks & ND & IFF).
  { destruct ev as [cx c|]; [|exists []; split; [constructor|simpl; tauto]].
    assert (distributes ck c \/ ~ distributes ck c) as [DI|NDI].
    { rewrite distributes_syncs. destruct (syncs c), (N.eq_dec (call_config c) ck); intuition congruence. }
    - inversion ST as [? ? ? ? WC CL RUN|]; subst. specialize (NK cx c eq_refl).
      destruct (run_clears _ _ _ _ _ _ OK R RUN DI NK) as (ks & [NDK _ _] & IFF). exists ks. split; [now apply NoDup_ListNoDup|exact IFF].
    - exists []. split; [constructor|]. intros k. split; [intros []|]. intros [D _]. exact (NDI D). }
  eexists. eapply hbooks_step; eauto.
Qed.
Print Assumptions C94_every_history.
(** Over its whole life, from the creation of the config: nothing is owed at the start. *)
Lemma created_owes_nothing e cx i s au cd b sy du w0 w1 : env_ok e -> reachable e w0 ->
  step e w0 (Do cx (CInitializeConfig i s au cd b sy du)) w1 -> holder_credits e w1 (ic_config i) = 0.
Proof.
  intros OK R ST. inversion ST as [? ? ? ? WC CL RUN|]; subst.
  destruct (created_level _ _ _ _ _ _ _ _ _ _ _ OK R RUN) as (c1 & C1 & L & _).
  apply N.le_0_r. rewrite <- L. unfold level, holder_credits, owed. apply sum_of_mono. intros d. unfold owing. lia.
Qed.
Theorem C94_lifetime e cx i s au cd b sy du w0 w1 w t : env_ok e -> reachable e w0 ->
  step e w0 (Do cx (CInitializeConfig i s au cd b sy du)) w1 -> let ck := ic_config i in
  holder_books e ck (holder_in_range e ck) w1 w t ->
  paid t + holder_claims e w ck + stray t / 10 ^ 18 <= received t + advances t + (early t / 10 ^ 18 + 1) /\
  received t + early t / 10 ^ 18 <= paid t + holder_claims e w ck + (stray t / 10 ^ 18 + 1) + (payments t + stakers e w ck).
Proof.
  intros OK R ST ck B. pose proof (reachable_step _ _ _ _ R ST) as R1. pose proof (created_owes_nothing _ _ _ _ _ _ _ _ _ _ _ OK R ST) as Z. fold ck in Z.
  pose proof (C94_no_more _ _ _ _ _ _ OK R1 B) as U. pose proof (C94_no_less _ _ _ _ _ OK R1 B) as D. rewrite Z in U, D. clear - U D.
  set (y := holder_claims e w ck) in *. set (z := stakers e w ck) in *. clearbody y z.
  pose proof (N.mul_div_le (stray t) (10 ^ 18) ltac:(lia)). pose proof (N.mul_succ_div_gt (stray t) (10 ^ 18) ltac:(lia)).
  pose proof (N.mul_div_le (early t) (10 ^ 18) ltac:(lia)). pose proof (N.mul_succ_div_gt (early t) (10 ^ 18) ltac:(lia)).
  set (u := stray t / 10 ^ 18) in *. set (v := early t / 10 ^ 18) in *. clearbody u v. split; lia.
Qed.
Print Assumptions C94_lifetime.
(** While tokens are only staked and unstaked when the accumulator stands still, and nothing
    was slashed, all the holder rewards reach the stake accounts. *)
Theorem C94_all_of_it e cx i s au cd b sy du w0 w1 w t : env_ok e -> reachable e w0 ->
  step e w0 (Do cx (CInitializeConfig i s au cd b sy du)) w1 -> let ck := ic_config i in
  holder_books e ck (holder_in_range e ck) w1 w t -> stray t = 0 -> early t = 0 ->
  paid t + holder_claims e w ck <= received t + advances t /\
  received t <= paid t + holder_claims e w ck + (payments t + stakers e w ck).
Proof.
  intros OK R ST ck B Z1 Z2. pose proof (reachable_step _ _ _ _ R ST) as R1. pose proof (created_owes_nothing _ _ _ _ _ _ _ _ _ _ _ OK R ST) as Z. fold ck in Z.
  pose proof (C94_no_more _ _ _ _ _ _ OK R1 B) as U. pose proof (C94_no_less _ _ _ _ _ OK R1 B) as D. rewrite Z in U, D. rewrite Z1, Z2 in *. clear - U D. split; lia.
Qed.
Print Assumptions C94_all_of_it.

(* The life of the example's config: 500 and 2000 tokens are staked, 1000 of Bob's are slashed
   (which takes as many in the vault, C09); the pool then
   pays 12500 lamports, of which Bob harvests 5000, the validator can claim 2500, and 5000 belong to nobody. *)
Definition stray_story : list act := setup ++
  [ donate 1000; slash_sol nat1 bob 1000; harvest_holder (50003 * 10 ^ 14); harvest_sol nat1 bob vote1 alice vote1 alice None (View vote1 bob 1000) ].
Definition days (n : nat) : world := at_end (firstn n stray_story).
Definition all_holder_range (w w' : world) : bool :=
  forallb (fun x : N * account => match stake_in denv kcfg (fst x) (snd x) with
    | Some d => since (holder_acc denv w kcfg) (last_holder d) + advance denv kcfg w w' <? 2 ^ 128
    | None => true end) (map_to_list w').
Lemma all_holder_range_ok w w' : all_holder_range w w' = true -> forall k d, stake_of denv w' kcfg k = Some d -> holder_in_range denv kcfg w w' d.
Proof.
  intros H k d S. unfold all_holder_range in H. rewrite forallb_forall in H. unfold stake_of, get in S.
  destruct (w' !! k) as [a|] eqn:E; [|discriminate]. simpl in S. apply elem_of_map_to_list, elem_of_list_In in E.
  specialize (H _ E). cbn [fst snd] in H. rewrite S in H. now apply N.ltb_lt.
Qed.
Lemma hbooks_go w0 w t ev w' ks t' : holder_books denv kcfg (holder_in_range denv kcfg) w0 w t -> step denv w ev w' ->
  (forall cx c, ev = Do cx c -> keeper_in c <> Some kcfg) ->
  List.NoDup ks -> (forall k, In k ks <-> settled_by denv kcfg w ev k) -> all_holder_range w w' = true ->
  add_line t (line_of denv kcfg w ev w' ks) = t' -> holder_books denv kcfg (holder_in_range denv kcfg) w0 w' t'.
Proof. intros B ST NK ND IFF RG <-. eapply hbooks_step; eauto. now apply all_holder_range_ok. Qed.
Ltac day n a ks := eapply (hbooks_go _ (days n) _ _ _ ks);
  [|apply (at_end_step (firstn n stray_story) a); vm_compute; reflexivity
   |intros ? ? [=]; subst; discriminate
   |repeat constructor; intros []
   |
   |vm_compute; reflexivity
   |].
Ltac nobody := intros k; split; [intros []|intros [[] _]].
Ltac itself := unfold settled_by, settles_account; simpl; intuition.
Lemma stray_books : exists t, holder_books denv kcfg (holder_in_range denv kcfg) (days 1) (days 10) t /\
  (received t = 12500 /\ paid t = 5000 /\ early t = 0 /\ stray t = 1000 * (50003 * 10 ^ 14) /\ advances t = 1 /\ payments t = 4).
Proof.
  eexists. split.
  - day 9%nat (harvest_sol nat1 bob vote1 alice vote1 alice None (View vote1 bob 1000)) [ksol1].
    + day 8%nat (harvest_holder (50003 * 10 ^ 14)) (@nil N).
      * day 7%nat (slash_sol nat1 bob 1000) [ksol1].
        -- day 6%nat (donate 1000) (@nil N); [|intros k; split; intros []|reflexivity]. day 5%nat (stake_sol nat1 bob btok bob 2000 0) [ksol1].
           ++ day 4%nat (stake_val vote1 alice atok alice 500) [kval1].
              ** day 3%nat (init_sol nat1 vote1 bob 1000) (@nil N).
                 --- day 2%nat (init_val vote2 dave) (@nil N).
                     +++ day 1%nat (init_val vote1 alice) (@nil N).
                         *** apply hbooks_start.
                         *** nobody.
                         *** reflexivity.
                     +++ nobody.
                     +++ reflexivity.
                 --- nobody.
                 --- reflexivity.
              ** itself.
              ** reflexivity.
           ++ itself.
           ++ reflexivity.
        -- itself.
        -- reflexivity.
      * intros k. split; [intros []|intros [_ []]].
      * reflexivity.
    + intros k. split.
      * intros [<-|[]]. split; [reflexivity|]. exists (sol_of (days 9) ksol1), (View vote1 bob 1000). split; [split; vm_compute; reflexivity|].
        split; [reflexivity|]. vm_compute. reflexivity.
      * intros (_ & s & v & [_ SA] & [= <-] & X). left.
        assert (s = sol_of (days 9) ksol1) as -> by (unfold sol_of; change (hs_stake _) with ksol1 in SA; now rewrite SA).
        match type of X with if ?b then _ else _ => assert (b = true) as Y by (vm_compute; reflexivity) end. rewrite Y in X. now symmetry.
    + reflexivity.
  - split; [vm_compute; reflexivity|]. split; [vm_compute; reflexivity|]. split; [vm_compute; reflexivity|].
    split; [vm_compute; reflexivity|]. split; vm_compute; reflexivity.
Qed.

Example C94_case :
  (exists cx a, step denv world0 (Do cx (CInitializeConfig a slasher gov 1000 5000 100 docs)) (days 1) /\ ic_config a = kcfg) /\
  (exists t, holder_books denv kcfg (holder_in_range denv kcfg) (days 1) (days 10) t /\
    (received t = 12500 /\ paid t = 5000 /\ early t = 0 /\ stray t = 1000 * (50003 * 10 ^ 14) /\ advances t = 1 /\ payments t = 4)) /\
  holder_claims denv (days 10) kcfg = 2500 /\ stakers denv (days 10) kcfg = 3 /\ orphaned denv (days 10) kcfg = 1000.
Proof.
  split; [exact first_step|]. split; [exact stray_books|]. split; [vm_compute; reflexivity|]. split; vm_compute; reflexivity.
Qed.
(** So it is not the case that all holder rewards of a config reach its stake accounts up to
    a lamport for each advance, payment and account: those of slashed tokens reach nobody. *)
Theorem C94_reach_the_stakers_refuted : ~ (forall e cx i s au cd b sy du w0 w1 w t, env_ok e -> reachable e w0 ->
  step e w0 (Do cx (CInitializeConfig i s au cd b sy du)) w1 ->
  holder_books e (ic_config i) (holder_in_range e (ic_config i)) w1 w t -> early t = 0 ->
  received t <= paid t + holder_claims e w (ic_config i) + (advances t + payments t + stakers e w (ic_config i))).
Proof.
  intros H. destruct C94_case as ((cx & a & ST & E) & (t & B & T1 & T2 & T3 & T4 & T5 & T6) & T7 & T8 & _).
  rewrite <- E in B at 1 2. specialize (H _ _ _ _ _ _ _ _ _ _ _ _ _ denv_ok world0_reachable ST B T3).
  rewrite E, T1, T2, T5, T6, T7, T8 in H. revert H. vm_compute. intros H. now apply H.
Qed.
Print Assumptions C94_reach_the_stakers_refuted.

(* Without the slash: the pool pays 12500 lamports; Bob harvests 10000 and the validator can claim 2500. *)
Definition fair_days (n : nat) : world := at_end (firstn n holder_story).
Ltac fair_day n a ks := eapply (hbooks_go _ (fair_days n) _ _ _ ks);
  [|apply (at_end_step (firstn n holder_story) a); vm_compute; reflexivity
   |intros ? ? [=]; subst; discriminate
   |repeat constructor; intros []
   |
   |vm_compute; reflexivity
   |].
Example C94_all_of_it_case :
  (exists cx a, step denv world0 (Do cx (CInitializeConfig a slasher gov 1000 5000 100 docs)) (fair_days 1) /\ ic_config a = kcfg) /\
  (exists t, holder_books denv kcfg (holder_in_range denv kcfg) (fair_days 1) (fair_days 8) t /\
    (received t = 12500 /\ paid t = 10000 /\ early t = 0 /\ stray t = 0 /\ advances t = 1 /\ payments t = 3)) /\
  holder_claims denv (fair_days 8) kcfg = 2500 /\ stakers denv (fair_days 8) kcfg = 3.
Proof.
  split; [exact first_step|]. split; [|split; vm_compute; reflexivity].
  eexists. split.
  - fair_day 7%nat (harvest_sol nat1 bob vote1 alice vote1 alice None (View vote1 bob 1000)) [ksol1].
    + fair_day 6%nat (harvest_holder (50003 * 10 ^ 14)) (@nil N).
      * fair_day 5%nat (stake_sol nat1 bob btok bob 2000 0) [ksol1]; [|itself|reflexivity].
        fair_day 4%nat (stake_val vote1 alice atok alice 500) [kval1]; [|itself|reflexivity].
        fair_day 3%nat (init_sol nat1 vote1 bob 1000) (@nil N); [|nobody|reflexivity].
        fair_day 2%nat (init_val vote2 dave) (@nil N); [|nobody|reflexivity].
        fair_day 1%nat (init_val vote1 alice) (@nil N); [|nobody|reflexivity].
        apply hbooks_start.
      * intros k. split; [intros []|intros [_ []]].
      * reflexivity.
    + intros k. split.
      * intros [<-|[]]. split; [reflexivity|]. exists (sol_of (fair_days 7) ksol1), (View vote1 bob 1000). split; [split; vm_compute; reflexivity|].
        split; [reflexivity|]. vm_compute. reflexivity.
      * intros (_ & s & v & [_ SA] & [= <-] & X). left.
        assert (s = sol_of (fair_days 7) ksol1) as -> by (unfold sol_of; change (hs_stake _) with ksol1 in SA; now rewrite SA).
        match type of X with if ?b then _ else _ => assert (b = true) as Y by (vm_compute; reflexivity) end. rewrite Y in X. now symmetry.
    + reflexivity.
  - split; [vm_compute; reflexivity|]. split; [vm_compute; reflexivity|]. split; [vm_compute; reflexivity|].
    split; [vm_compute; reflexivity|]. split; vm_compute; reflexivity.
Qed.
(* One more deposit of 500 tokens lets the accumulator advance by 2.2002 lamports per token: 1100.1 are
   credited early; and a withdrawal of 100 tokens by 1 lamport per token: 100 stray. *)
Definition late_story : list act := firstn 8 holder_story ++
  [ stake_sol nat1 bob btok bob 500 (72005 * 10 ^ 14); harvest_holder (72005 * 10 ^ 14);
    unstake ksol1 bob btok 100 5000 (82005 * 10 ^ 14) ].
Example C94_early_case : let w0 := fair_days 8 in
  (exists t, holder_books denv kcfg (holder_in_range denv kcfg) w0 (at_end late_story) t /\
    (received t = 8500 /\ paid t = 5500 /\ early t = 500 * (22002 * 10 ^ 14) /\ stray t = 100 * 10 ^ 18 /\ advances t = 2 /\ payments t = 2)) /\
  holder_claims denv (at_end late_story) kcfg = 6500 /\ holder_credits denv w0 kcfg = 500 * (50003 * 10 ^ 14) /\ reachable denv w0.
Proof.
  cbv zeta. split; [|split; [vm_compute; reflexivity|split; [vm_compute; reflexivity|apply at_end_reachable; vm_compute; reflexivity]]].
  eexists. split.
  - eapply (hbooks_go _ (at_end (firstn 10 late_story)) _ _ _ [ksol1]);
    [|apply (at_end_step (firstn 10 late_story) (unstake ksol1 bob btok 100 5000 (82005 * 10 ^ 14))); vm_compute; reflexivity
     |intros ? ? [=]; subst; discriminate|repeat constructor; intros []|itself|vm_compute; reflexivity|reflexivity].
    eapply (hbooks_go _ (at_end (firstn 9 late_story)) _ _ _ (@nil N));
    [|apply (at_end_step (firstn 9 late_story) (harvest_holder (72005 * 10 ^ 14))); vm_compute; reflexivity
     |intros ? ? [=]; subst; discriminate|constructor|intros k; split; [intros []|intros [_ []]]|vm_compute; reflexivity|reflexivity].
    eapply (hbooks_go _ (fair_days 8) _ _ _ [ksol1]);
    [apply hbooks_start|apply (at_end_step (firstn 8 holder_story) (stake_sol nat1 bob btok bob 500 (72005 * 10 ^ 14))); vm_compute; reflexivity
     |intros ? ? [=]; subst; discriminate|repeat constructor; intros []|itself|vm_compute; reflexivity|reflexivity].
  - split; [vm_compute; reflexivity|]. split; [vm_compute; reflexivity|]. split; [vm_compute; reflexivity|].
    split; [vm_compute; reflexivity|]. split; vm_compute; reflexivity.
Qed.
