(** The invariants hold in every reachable world. *)
From Verif Require Import Base Types Layout Instr Math External Processor Runtime History Spec
  WorldLemmas Effects Handlers Evolve Sane Wf Arith Totals Nets Caps Stakers Deposits.

Record inv (e : env) (w : world) : Prop := {
  i_sane : sane e w;
  i_lamp : lamp e w;
  i_wf : wf_world w;
  i_eff : effsum e w;
  i_caps : caps e w;
  i_totals : totals e w;
  i_backed : forall ck, sum_of e w ck staked <= deposit e w ck;
}.

Lemma genesis_raw e w k D : genesis e w -> own (get w k) = e_prog e -> dat (get w k) = D -> exists n, D = DRaw (repeat 0 n).
Proof. intros G O <-. destruct (gen_owned _ _ G k O) as [[n ->] _]. eauto. Qed.
Lemma genesis_stake_of e w ck k : genesis e w -> stake_of e w ck k = None.
Proof.
  intros G. destruct (stake_of e w ck k) eqn:E; auto. apply stake_of_some in E as (O & D & _).
  destruct (genesis_raw _ _ _ _ G O eq_refl) as [n E]. rewrite E in D. discriminate.
Qed.
Lemma genesis_sum e w ck g : genesis e w -> sum_of e w ck g = 0.
Proof. intros G. apply sum_of_none. intros k. now apply genesis_stake_of. Qed.
Lemma genesis_deposit e w ck : genesis e w -> deposit e w ck = 0.
Proof.
  intros G. unfold deposit. destruct (dat (get w (e_holder e (e_vault e ck)))) eqn:D; auto.
  eapply gen_holder; eauto.
Qed.

Lemma inv_genesis e w : env_ok e -> genesis e w -> inv e w.
Proof.
  intros OK G. assert (forall k n, own (get w k) = e_prog e -> forall D, dat (get w k) = D ->
    (forall b, D <> DRaw b) -> n <> n :> N) as ABS.
  { intros k n O D E NR. destruct (genesis_raw _ _ _ _ G O E) as [m EM]. exfalso. eapply NR; eauto. }
  split.
  - now apply sane_genesis.
  - intros k c [O D]. exfalso. eapply (ABS k 0); eauto; congruence.
  - apply (gen_wf _ _ G).
  - intros k c [O D]. exfalso. eapply (ABS k 0); eauto; congruence.
  - intros k O. destruct (genesis_raw _ _ _ _ G O eq_refl) as [n ->]. exact I.
  - split.
    + intros k v ck [O D] _. exfalso. eapply (ABS k 0); eauto; congruence.
    + intros k s ck [O D] _. exfalso. eapply (ABS k 0); eauto; congruence.
  - intros ck. rewrite genesis_sum by auto. lia.
Qed.

(** Staked sum and deposit move together, up to slashes. *)
Lemma backed_step e w ev w' ck : env_ok e -> inv e w -> step e w ev w' ->
  sum_of e w' ck staked + slashed_in e ck w ev + deposit e w ck = sum_of e w ck staked + deposit e w' ck.
Proof.
  intros OK I ST. destruct ST as [w cx c w' WC WL R | w w' R].
  - apply run_ok in R as (_ & D & _). destruct I.
    pose proof (deposit_did _ _ _ _ _ ck OK i_sane0 i_wf0 (i_backed0 ck) D) as A.
    pose proof (sum_staked_did _ _ _ _ _ ck OK i_sane0 D) as B.
    assert (slashed_in e ck w (Do cx c) = stake_slashed e w c ck) as ->.
    { simpl. destruct c; simpl; auto; rewrite N.eqb_sym; reflexivity. }
    lia.
  - simpl. rewrite (deposit_rely _ _ _ ck R). rewrite (sum_of_eq e w w') by (intros; eapply rely_stake_of; eauto). lia.
Qed.

Lemma inv_step e w ev w' : env_ok e -> inv e w -> step e w ev w' -> inv e w'.
Proof.
  intros OK I ST. pose proof (fun ck => backed_step _ _ _ _ ck OK I ST) as BK.
  assert (forall ck, sum_of e w' ck staked <= deposit e w' ck) as BK'.
  { intros ck. specialize (BK ck). pose proof (i_backed _ _ I ck). lia. }
  clear BK. destruct ST as [w cx c w' WC WL R | w w' R]; destruct I.
  - apply run_ok in R as (_ & D & _).
    split; eauto using sane_did, lamp_did, wf_did, effsum_did, caps_did, totals_did.
  - split; eauto using sane_rely, lamp_rely, effsum_rely, caps_rely, totals_rely. apply (rely_wf _ _ _ R).
Qed.
Lemma inv_steps e w tr w' : env_ok e -> inv e w -> steps e w tr w' -> inv e w'.
Proof. intros OK I ST. induction ST; eauto using inv_step. Qed.
Lemma inv_reachable e w : env_ok e -> reachable e w -> inv e w.
Proof. intros OK (w0 & tr & G & ST). eauto using inv_steps, inv_genesis. Qed.
Lemma inv_tally e f w w' n : env_ok e -> inv e w -> tally e f w w' n -> inv e w'.
Proof. intros OK I ST. induction ST; eauto using inv_step. Qed.
Lemma reachable_step e w ev w' : reachable e w -> step e w ev w' -> reachable e w'.
Proof. intros (w0 & tr & G & ST) S. exists w0, (tr ++ [ev]). split; auto. econstructor; eauto. Qed.
Lemma reachable_tally e f w w' n : reachable e w -> tally e f w w' n -> reachable e w'.
Proof. intros R T. induction T; eauto using reachable_step. Qed.
Lemma steps_tally e f w tr w' : steps e w tr w' -> exists n, tally e f w w' n.
Proof. intros ST. induction ST as [w|w tr w' ev w'' ST [n IH] S]; eexists; econstructor; eauto. Qed.

Lemma backed_tally e ck w0 w n : env_ok e -> genesis e w0 -> tally e (slashed_in e ck) w0 w n ->
  sum_of e w ck staked + n = deposit e w ck.
Proof.
  intros OK G T. assert (inv e w0) as I by now apply inv_genesis.
  induction T as [w|w w' n ev w'' T IH ST].
  - rewrite genesis_sum, genesis_deposit by auto. lia.
  - specialize (IH G I). pose proof (backed_step _ _ _ _ ck OK (inv_tally _ _ _ _ _ OK I T) ST) as B. lia.
Qed.
