(** C84: when everybody asks for their rewards. *)
From Coq Require Import Permutation.
From Verif Require Import Base Types Layout Instr Math External Processor Runtime History Spec SpecReward SpecLive
  WorldLemmas Effects Handlers Evolve Sane Wf Arith Totals Nets Caps Stakers Deposits Inv Rewards Collect Progress
  Live LiveMore LiveStake LiveTokens Can SpecError Errors PropError SpecOver Over SpecNeeds PropNeeds SpecSync PropSync
  SpecOrder Order PropOrder SpecRun SpecSolvency Solvency PropSolvency Demo PropOver.

Lemma proper_pays e w ck x sk auth : proper e w ck x sk auth -> only_pays w ck x sk auth.
Proof.
  intros [cx a v E [VO VD] K AU VH WC WR|cx a s vw E [SO SD] K AU VH NT VI CV V1 V2 WC WR].
  - constructor; auto; apply WR; simpl; auto.
  - econstructor; eauto; apply WR; simpl; auto.
Qed.
Lemma proper_named e w ck x sk auth : proper e w ck x sk auth -> harvested_stake x = sk /\ harvest_payee x = auth /\ wf_ctx e (fst x) /\ wf_call (snd x).
Proof. intros []; (split; [reflexivity|]; split; [reflexivity|]; split; [assumption|exact Logic.I]). Qed.
Lemma proper_stake e w ck x sk auth : proper e w ck x sk auth -> exists d, stake_of e w ck sk = Some d /\ auth = authority d.
Proof.
  intros [cx a v E [VO VD] K AU VH WC WR|cx a s vw E [SO SD] K AU VH NT VI CV V1 V2 WC WR].
  - exists (v_del v). split; auto. apply stake_of_intro; auto; rewrite VD; [reflexivity|]. simpl. now rewrite <- K.
  - exists (s_del s). split; auto. apply stake_of_intro; auto; rewrite SD; [reflexivity|]. simpl. now rewrite <- K.
Qed.
(** One harvest. *)
Lemma proper_goes e w ck x sk auth : env_ok e -> reachable e w -> in_business e w ck -> proper e w ck x sk auth -> auth <> ck ->
  (exists w', run e (fst x) (snd x) w = Ok w') <-> pending e w ck sk + e_rent e CONFIG_LEN <= lam (get w ck).
Proof.
  intros OK R ((c & C) & (h & HH) & TT) P NA. destruct (proper_stake _ _ _ _ _ _ P) as (d & S & AD).
  destruct P as [cx a v E [VO VD] K AU VH WC WR|cx a s vw E [SO SD] K AU VH NT VI CV V1 V2 WC WR]; cbn [fst snd].
  - subst ck. destruct (C55_harvest_validator e cx a w OK R WC TT WR NA) as [F G]. split.
    + intros [w' RUN]. destruct F as (c0 & v0 & _ & _ & (_ & _ & _ & _ & P)); [exists w'; now constructor|exact P].
    + intros P. destruct G as [w' ST]; [|inversion ST; eauto]. exists c, v. split; [auto|]. split; [split; auto|].
      assert (d = v_del v) as -> by (apply stake_of_some in S as (_ & D & _); rewrite VD in D; now injection D as <-).
      split; [auto|]. split; [auto|]. split; [auto|]. split; [rewrite VH; eauto|exact P].
  - subst ck. assert (~ changed s vw) as NC by (unfold changed; tauto).
    destruct (C64_unchanged e cx a w s vw OK R WC TT (conj SO SD) CV NC NA WR) as [F G]. split.
    + intros [w' RUN]. destruct F as (_ & (_ & _ & _ & _ & P) & _); [exists w'; now constructor|exact P].
    + intros P. destruct G as [w' ST]; [|inversion ST; eauto]. split; [eauto|]. split; [|auto].
      assert (d = s_del s) as -> by (apply stake_of_some in S as (_ & D & _); rewrite SD in D; now injection D as <-).
      split; [auto|]. split; [auto|]. split; [auto|]. split; [rewrite VH; eauto|exact P].
Qed.
Record one_paid (e : env) (ck sk auth : pubkey) (w w' : world) : Prop := {
  op_reach : reachable e w';
  op_open : in_business e w' ck;
  op_lam : forall k, lam (get w' k) + (if k =? ck then pending e w ck sk else 0) = lam (get w k) + (if k =? auth then pending e w ck sk else 0);
  op_self : pending e w' ck sk = 0;
  op_oth : forall k, k <> sk -> pending e w' ck k = pending e w ck k;
  op_proper : forall x k a, proper e w ck x k a -> k <> sk -> proper e w' ck x k a }.
Lemma proper_then e w ck x sk auth w' : env_ok e -> reachable e w -> in_business e w ck -> proper e w ck x sk auth -> auth <> ck ->
  run e (fst x) (snd x) w = Ok w' -> one_paid e ck sk auth w w'.
Proof.
  intros OK R ((c & C) & (h & HH) & TT) P NA RUN. destruct (proper_stake _ _ _ _ _ _ P) as (d & S & AD).
  destruct (proper_named _ _ _ _ _ _ P) as (_ & _ & WC & WL).
  assert (step e w (Do (fst x) (snd x)) w') as ST by (constructor; auto).
  pose proof (reachable_step _ _ _ _ R ST) as R'. pose proof (ready_inv _ _ _ _ _ (inv_reachable _ _ OK R) C HH TT) as RY.
  pose proof (proper_pays _ _ _ _ _ _ P) as OP. destruct (run_pays _ _ _ _ _ _ _ OP RUN) as (c0 & d0 & h0 & rpt & sr & hr & PD).
  apply run_handler in RUN as [H _]. destruct (pays_is _ _ _ _ _ _ _ OP H) as [H1 _].
  destruct (harvest_then _ _ _ _ _ _ _ _ None _ OK RY C S NA ltac:(discriminate) H1) as (AF & G & ac & ho & D1 & a' & l' & C1).
  assert (sk <> ck) as NS by (intros ->; apply stake_of_some in S as (_ & D & _); destruct C as [_ C]; rewrite C in D; discriminate).
  pose proof (go_paid _ _ _ _ _ _ _ _ G) as PA. pose proof (pd_l _ _ _ _ _ _ _ _ _ _ _ _ PD) as PL.
  assert (sr + hr = pending e w ck sk) as PE.
  { pose proof (PL ck) as L. rewrite N.eqb_refl in L. rewrite (proj2 (N.eqb_neq ck auth)) in L by congruence. unfold gain in L.
    pose proof (rd_lam _ _ _ _ _ _ _ _ _ _ _ (pd_r _ _ _ _ _ _ _ _ _ _ _ _ PD)). lia. }
  split; auto.
  - split; [|split].
    + exists (set_cfg_last (set_cfg_acc c a') l'). split; [rewrite (go_own _ _ _ _ _ _ _ _ G); apply C|exact C1].
    + exact (re_hold _ _ _ (go_ready _ _ _ _ _ _ _ _ G)).
    + exact (re_tot _ _ _ (go_ready _ _ _ _ _ _ _ _ G)).
  - intros k. rewrite PL, PE. unfold gain. destruct (N.eqb_spec k ck) as [->|]; destruct (_ =? auth); lia.
  - exact (collected_zero _ _ _ _ _ (go_coll _ _ _ _ _ _ _ _ G)).
  - intros k NE. exact (collected_pending _ _ _ _ _ _ (go_coll _ _ _ _ _ _ _ _ G) NE).
  - intros y k au PY NE. pose proof (go_own _ _ _ _ _ _ _ _ G) as OW. pose proof (go_dat _ _ _ _ _ _ _ _ G) as DT.
    destruct C as [_ C].
    destruct PY as [cy a v E [VO VD] K AU VH WC' WR|cy a s vw E [SO SD] K AU VH NT VI CV V1 V2 WC' WR].
    + apply (ProperVal _ _ _ cy a v); auto. split; [rewrite OW; auto|rewrite DT; auto]. intros X. rewrite X in VD. congruence.
    + apply (ProperSol _ _ _ cy a s vw); auto. split; [rewrite OW; auto|rewrite DT; auto]. intros X. rewrite X in SD. congruence.
Qed.
Lemma queue_next e w ck x l w' sk auth : queue e w ck (x :: l) -> proper e w ck x sk auth -> one_paid e ck sk auth w w' ->
  queue e w' ck l /\ (forall y, In y l -> harvested_stake y <> sk).
Proof.
  intros [A B] P OP. destruct (proper_named _ _ _ _ _ _ P) as (E & _). simpl in B. rewrite E in B. apply List.NoDup_cons_iff in B as [NI B].
  assert (forall y, In y l -> harvested_stake y <> sk) as NE by (intros y I X; apply NI; rewrite <- X; now apply in_map).
  split; [|exact NE]. split; [|exact B]. intros y I. destruct (A y (or_intror I)) as (k & a & PY & NA). exists k, a. split; [|exact NA].
  apply (op_proper _ _ _ _ _ _ OP); auto. destruct (proper_named _ _ _ _ _ _ PY) as (<- & _). auto.
Qed.
Lemma dues_next e w w' ck sk auth l : one_paid e ck sk auth w w' -> (forall y, In y l -> harvested_stake y <> sk) ->
  dues e w' ck l = dues e w ck l /\ forall k, dues_of e w' ck k l = dues_of e w ck k l.
Proof.
  intros OP. induction l as [|x l IH]; intros NE; simpl; [auto|]. destruct IH as [I1 I2]; [intros; apply NE; simpl; auto|].
  rewrite I1, (op_oth _ _ _ _ _ _ OP) by (apply NE; simpl; auto). split; [reflexivity|]. intros k. now rewrite I2.
Qed.

(** A queue of harvests goes through exactly when the config can pay all of it and
    stay rent exempt. *)
Theorem C84_queue_goes_through e ck l w : env_ok e -> reachable e w -> in_business e w ck -> queue e w ck l ->
  (exists w', in_a_row e l w = Ok w') <-> dues e w ck l + e_rent e CONFIG_LEN <= lam (get w ck).
Proof.
  intros OK. revert w. induction l as [|[cx c] l IH]; intros w R B Q.
  - simpl. split; [|eauto]. intros _. destruct B as ((c & C) & _). apply (i_lamp _ _ (inv_reachable _ _ OK R) _ _ C).
  - destruct (proj1 Q (cx, c) (or_introl eq_refl)) as (sk & auth & P & NA). destruct (proper_named _ _ _ _ _ _ P) as (E & _).
    pose proof (proper_goes _ _ _ _ _ _ OK R B P NA) as PG. cbn [in_a_row dues]. rewrite E. cbn [fst snd] in PG.
    destruct (run e cx c w) as [w1|x|] eqn:RUN.
    + rewrite bind_Ok. pose proof (proper_then _ _ _ _ _ _ _ OK R B P NA RUN) as OP.
      destruct (queue_next _ _ _ _ _ _ _ _ Q P OP) as [Q1 NE]. destruct (dues_next _ _ _ _ _ _ _ OP NE) as [DE _].
      rewrite (IH w1 (op_reach _ _ _ _ _ _ OP) (op_open _ _ _ _ _ _ OP) Q1), DE.
      pose proof (op_lam _ _ _ _ _ _ OP ck) as L. rewrite N.eqb_refl, (proj2 (N.eqb_neq ck auth)) in L by congruence. lia.
    + simpl. split; [intros [? [=]]|]. intros L. destruct (proj2 PG) as [? [=]]. lia.
    + simpl. split; [intros [? [=]]|]. intros L. destruct (proj2 PG) as [? [=]]. lia.
Qed.
Print Assumptions C84_queue_goes_through.

(** Everybody in it gets exactly what they were owed at the start, the config pays
    it, nobody else's lamports change, and nobody else's claims do. *)
Theorem C84_everybody_is_paid e ck l w w' : env_ok e -> reachable e w -> in_business e w ck -> queue e w ck l ->
  in_a_row e l w = Ok w' ->
  lam (get w' ck) + dues e w ck l = lam (get w ck) /\
  (forall k, k <> ck -> lam (get w' k) = lam (get w k) + dues_of e w ck k l) /\
  (forall k, In k (map harvested_stake l) -> pending e w' ck k = 0) /\
  (forall k, ~ In k (map harvested_stake l) -> pending e w' ck k = pending e w ck k).
Proof.
  intros OK. revert w. induction l as [|[cx c] l IH]; intros w R B Q H.
  - simpl in H. injection H as <-. simpl. repeat split; intros; try lia; try contradiction.
  - destruct (proj1 Q (cx, c) (or_introl eq_refl)) as (sk & auth & P & NA). destruct (proper_named _ _ _ _ _ _ P) as (E & PY & _).
    cbn [in_a_row] in H. apply bind_ok in H as (w1 & RUN & H).
    pose proof (proper_then _ _ _ _ _ _ _ OK R B P NA RUN) as OP.
    destruct (queue_next _ _ _ _ _ _ _ _ Q P OP) as [Q1 NE]. destruct (dues_next _ _ _ _ _ _ _ OP NE) as [DE DO].
    destruct (IH w1 (op_reach _ _ _ _ _ _ OP) (op_open _ _ _ _ _ _ OP) Q1 H) as (L1 & L2 & Z & U). clear IH.
    pose proof (op_lam _ _ _ _ _ _ OP) as L. cbn [dues dues_of map In]. rewrite E, PY, DE in *. split; [|split; [|split]].
    + specialize (L ck). rewrite N.eqb_refl, (proj2 (N.eqb_neq ck auth)) in L by congruence. lia.
    + intros k NK. rewrite (L2 k NK), DO. specialize (L k). rewrite (proj2 (N.eqb_neq k ck) NK), (N.eqb_sym k auth) in L.
      destruct (auth =? k); lia.
    + intros k [<-|IN]; [|auto]. rewrite U; [apply (op_self _ _ _ _ _ _ OP)|]. intros IN. apply in_map_iff in IN as (y & EY & IY). exact (NE y IY EY).
    + intros k NI. rewrite U by tauto. apply (op_oth _ _ _ _ _ _ OP). intros ->. apply NI. auto.
Qed.
Print Assumptions C84_everybody_is_paid.

Lemma sum_over_sum_of e w ck g ks : List.NoDup ks -> sum_over (fun k => value g (stake_of e w ck k)) ks <= sum_of e w ck g.
Proof.
  intros ND. set (w' := fold_right (fun k w => put w k no_account) w ks).
  assert (forall k, In k ks -> get w' k = no_account) as I1.
  { subst w'. clear. induction ks as [|x ks IH]; simpl; [contradiction|]. intros k IN. unfold get, put.
    destruct (N.eq_dec x k) as [->|NE]; [now rewrite lookup_insert|]. rewrite lookup_insert_ne by auto. apply IH. tauto. }
  assert (forall k, ~ In k ks -> get w' k = get w k) as I2.
  { subst w'. clear. induction ks as [|x ks IH]; simpl; [auto|]. intros k NI. unfold get, put.
    rewrite lookup_insert_ne by tauto. apply IH. tauto. }
  pose proof (sum_of_list e w w' ck g ks) as L. rewrite (sum_over_ext (fun k => value g (stake_of e w' ck k)) (fun _ => 0)) in L.
  - assert (sum_over (fun _ => 0) ks = 0) as Z by (clear; induction ks; simpl; auto). rewrite Z in L.
    specialize (L ltac:(now apply NoDup_ListNoDup) ltac:(intros x NI; unfold stake_of; now rewrite I2)). lia.
  - intros k IN. unfold stake_of. rewrite (I1 _ IN). unfold stake_in. now destruct (own no_account =? e_prog e).
Qed.
Lemma dues_claims e w ck l : (exists c, config_at e w ck c) -> List.NoDup (map harvested_stake l) -> dues e w ck l <= claims e w ck.
Proof.
  intros (c & [_ C]) ND. unfold claims. rewrite C. eapply N.le_trans; [|apply (sum_over_sum_of _ _ _ _ _ ND)]. clear ND.
  induction l as [|x l IH]; simpl; [lia|]. apply N.add_le_mono; [|exact IH]. unfold pending. rewrite C. unfold value.
  destruct (stake_of e w ck (harvested_stake x)); reflexivity.
Qed.
(** A run on the config: whatever happened since it was created, if what was there
    at the start covers the config's rent, what the vault authority still holds, and
    the rounding (see C18), then everybody can be paid, in any order. *)
Theorem C84_run_on_the_config e cx a s au cd b sy du w0 w w' n l : env_ok e -> reachable e w0 ->
  step e w0 (Do cx (CInitializeConfig a s au cd b sy du)) w -> covered e (ic_config a) w w' n ->
  in_business e w' (ic_config a) -> queue e w' (ic_config a) l ->
  e_rent e CONFIG_LEN + lam (get w' (e_vault e (ic_config a))) + n / 10 ^ 18 <= funds e w (ic_config a) ->
  forall l', Permutation l l' -> exists v, in_a_row e l' w' = Ok v.
Proof.
  intros OK R ST CV B Q F l' PM. pose proof (covered_reachable _ _ _ _ _ (reachable_step _ _ _ _ R ST) CV) as R'.
  assert (queue e w' (ic_config a) l') as Q'.
  { destruct Q as [A N]. split; [intros x I; apply A; eapply Permutation_in; [symmetry; exact PM|exact I]|].
    eapply Permutation_NoDup; [apply Permutation_map; exact PM|exact N]. }
  apply (C84_queue_goes_through e (ic_config a) l' w' OK R' B Q').
  pose proof (C18_solvency _ _ _ _ _ _ _ _ _ _ _ _ _ OK R ST CV) as K. pose proof (dues_claims _ _ _ _ (proj1 B) (proj2 Q')) as D.
  unfold funds in *. lia.
Qed.
Print Assumptions C84_run_on_the_config.

(* A million lamports arrive; both validators and the staker ask for theirs. *)
Definition calm_story : list act := tl (firstn 7 story).
Lemma calm_queue : queue denv (at_end (init_config :: calm_story)) kcfg [pay_val1; pay_sol1; pay_val2].
Proof.
  split.
  - intros x [<-|[<-|[<-|[]]]].
    + exists kval1, alice. split; [|discriminate].
      apply (ProperVal _ _ _ (cx [] 0 None 0) (HarvestValA kcfg kvhr kval1 alice) (val_of (at_end (init_config :: calm_story)) kval1));
        [vm_compute; reflexivity|split; vm_compute; reflexivity|vm_compute; reflexivity..|apply ctx_ok_wf; vm_compute; reflexivity|].
      intros k [<-|[<-|[<-|[]]]]; vm_compute; reflexivity.
    + exists ksol1, bob. split; [|discriminate].
      apply (ProperSol _ _ _ (cx [] 0 (Some (View vote1 bob 1000)) 0)
        (HarvestSolA (e_view denv) kcfg kvhr ksol1 bob nat1 kval1 alice kval1 alice None)
        (sol_of (at_end (init_config :: calm_story)) ksol1) (View vote1 bob 1000));
        [vm_compute; reflexivity|split; vm_compute; reflexivity|vm_compute; reflexivity..|apply ctx_ok_wf; vm_compute; reflexivity|].
      intros k [<-|[<-|[<-|[]]]]; vm_compute; reflexivity.
    + exists kval2, dave. split; [|discriminate].
      apply (ProperVal _ _ _ (cx [] 0 None 0) (HarvestValA kcfg kvhr kval2 dave) (val_of (at_end (init_config :: calm_story)) kval2));
        [vm_compute; reflexivity|split; vm_compute; reflexivity|vm_compute; reflexivity..|apply ctx_ok_wf; vm_compute; reflexivity|].
      intros k [<-|[<-|[<-|[]]]]; vm_compute; reflexivity.
  - simpl map. repeat (apply List.NoDup_cons; [vm_compute; intuition discriminate|]). apply List.NoDup_nil.
Qed.
Lemma calm_open : in_business denv (at_end (init_config :: calm_story)) kcfg.
Proof.
  split; [|split; [|vm_compute; reflexivity]].
  - exists (cfg_of (at_end (init_config :: calm_story)) kcfg). split; vm_compute; reflexivity.
  - exists match dat (get (at_end (init_config :: calm_story)) kvhr) with DHolder h => h | _ => Hold 0 0 end. vm_compute. reflexivity.
Qed.
Example C84_case : let w := at_end (init_config :: calm_story) in let l := [pay_val1; pay_sol1; pay_val2] in
  reachable denv w /\ in_business denv w kcfg /\ queue denv w kcfg l /\
  covered denv kcfg (at_end [init_config]) w 0 /\
  e_rent denv CONFIG_LEN + lam (get w (e_vault denv kcfg)) + 0 / 10 ^ 18 <= funds denv (at_end [init_config]) kcfg /\
  dues denv w kcfg l = 999999 /\ dues_of denv w kcfg bob l = 722222 /\ dues_of denv w kcfg alice l = 277777 /\
  dues_of denv w kcfg dave l = 0 /\ lam (get w kcfg) = e_rent denv CONFIG_LEN + 1000000.
Proof.
  cbv zeta. split; [apply at_end_reachable; vm_compute; reflexivity|]. split; [exact calm_open|]. split; [exact calm_queue|].
  split; [replace 0 with (spent (allowance denv kcfg) calm_story) by (vm_compute; reflexivity); apply script_covered; vm_compute; reflexivity|].
  split; [vm_compute; discriminate|]. repeat (split; [vm_compute; reflexivity|]). vm_compute. reflexivity.
Qed.
(* The holder rate jumps during a deposit (C39) and the config owes bob more than it
   holds: the same queue is stuck, whatever the order. *)
Example C84_stuck_case : let w := at_end (setup ++ [jump 1000]) in
  dues denv w kcfg [pay_val1; pay_sol1; pay_val2] = 3500000 /\ lam (get w kcfg) = 2227200 /\
  in_a_row denv [pay_val1; pay_sol1; pay_val2] w = Panic /\ in_a_row denv [pay_sol1; pay_val1; pay_val2] w = Err ArithmeticOverflow.
Proof. vm_compute. auto. Qed.
