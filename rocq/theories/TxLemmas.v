(** The end of a transaction keeps a history a history. *)
From stdpp Require Import fin_maps gmap.
From Verif Require Import Base Types Layout Instr Math External Processor Runtime History Spec
  WorldLemmas Effects Handlers Evolve Sane Wf Totals Nets Caps Stakers Deposits Inv Life Gov Flow Kinds Rewards Solvency
  Tx SpecTx.

Lemma get_purge w k : get (purge w) k = if lam (get w k) =? 0 then no_account else get w k.
Proof.
  unfold get, purge. rewrite map_filter_lookup. destruct (w !! k) as [a|] eqn:E; simpl; [|reflexivity].
  destruct (lam a =? 0) eqn:Z; case_option_guard; simpl in *; congruence.
Qed.
Lemma rent_ok_iff e w w' : rent_ok e w w' = true <-> forall k, rent_moves e (get w k) (get w' k) = true.
Proof.
  unfold rent_ok. rewrite forallb_forall. split.
  - intros H k. unfold get at 2. destruct (w' !! k) as [a|] eqn:E; simpl.
    + apply (H (k, a)). apply elem_of_list_In. now apply elem_of_map_to_list.
    + reflexivity.
  - intros H [k a] I. apply elem_of_list_In, elem_of_map_to_list in I. specialize (H k). simpl.
    unfold get at 2 in H. now rewrite I in H.
Qed.
Lemma rent_paying_iff e a : rent_paying e a = true <-> 0 < lam a /\ ~ exempt e a.
Proof. unfold rent_paying, exempt. rewrite andb_true_iff, !N.ltb_lt. lia. Qed.
Lemma rent_moves_settled e a a' : a = no_account \/ exempt e a ->
  rent_moves e a a' = true <-> (lam a' = 0 \/ exempt e a').
Proof.
  intros S. unfold rent_moves. assert (rent_paying e a = false) as ->.
  { destruct (rent_paying e a) eqn:R; [|auto]. apply rent_paying_iff in R as [R1 R2]. destruct S as [->|]; [cbn in R1; lia|contradiction]. }
  cbn [andb]. rewrite orb_false_r, negb_true_iff.
  destruct (rent_paying e a') eqn:R; [apply rent_paying_iff in R|].
  - split; [discriminate|]. intros [Z|Z]; [lia|tauto].
  - split; [|auto]. intros _. destruct (N.eq_dec (lam a') 0); [auto|right].
    unfold rent_paying, exempt in *. apply andb_false_iff in R as [R|R]; apply N.ltb_ge in R; [lia|exact R].
Qed.
Lemma rent_ok_settled e w w' : settled e w ->
  rent_ok e w w' = true <-> (forall k, lam (get w' k) = 0 \/ exempt e (get w' k)).
Proof.
  intros S. rewrite rent_ok_iff. split; intros H k; specialize (H k); apply (rent_moves_settled e (get w k)); auto.
Qed.
Lemma settled_purge e w : (forall k, lam (get w k) = 0 \/ exempt e (get w k)) -> settled e (purge w).
Proof.
  intros H k. rewrite get_purge. destruct (N.eqb_spec (lam (get w k)) 0); [auto|]. destruct (H k); [contradiction|auto].
Qed.

Lemma did_own e cx w w' c k : env_ok e -> did e cx w w' c ->
  own (get w' k) = own (get w k) \/ own (get w' k) = e_prog e.
Proof.
  intros OK D. destruct (creates c) eqn:C; [|left; apply (ev_own _ _ _ (did_evolves _ _ _ _ _ OK D C))].
  destruct D; try discriminate; destruct H; rewrite Ho; destruct (_ =? k); auto.
Qed.
Lemma syncs_config e cx w w' c : did e cx w w' c -> syncs c = true -> exists c0, config_at e w (call_config c) c0.
Proof. intros D Y. destruct D; try discriminate Y; cbn [call_config]; destruct H; eexists; split; eauto. Qed.
(** Accounts of other programs, other than a rewards pool, lose nothing. *)
Lemma foreign_keeps e cx w w' c k : env_ok e -> sane e w -> did e cx w w' c ->
  own (get w k) <> e_prog e -> ~ pda e k -> (forall m, k <> e_pool e m) -> lam (get w k) <= lam (get w' k).
Proof.
  intros OK S D NO NP NL. destruct (syncs c) eqn:Y; [|rewrite (quiet_lam _ _ _ _ _ D Y); reflexivity].
  destruct (N.le_gt_cases (lam (get w k)) (lam (get w' k))) as [|L]; [auto|exfalso].
  destruct (syncs_config _ _ _ _ _ D Y) as (c0 & CO & _).
  destruct (flow_fine _ _ _ _ _ OK S D k) as [_ F]. destruct (F L) as [->|[[-> _]|(_ & [m E] & _)]].
  - contradiction.
  - apply NP, pda_vault.
  - now apply (NL m).
Qed.
Lemma funded_did e cx w w' c : env_ok e -> sane e w -> did e cx w w' c -> funded e w -> funded e w'.
Proof.
  intros OK S D F. destruct (prog_ids _ OK) as (_ & PT & PR & TR & _ & _ & T0 & R0). split.
  - intros k t O T. assert (own (get w k) = e_token e) as O1 by (destruct (did_own _ _ _ _ _ k OK D); congruence).
    destruct (kind_did _ _ _ _ _ k OK S D) as [K|[K _]]; [|congruence]. rewrite T in K.
    destruct (dat (get w k)) as [| | | |t0| | |] eqn:E; try discriminate K.
    pose proof (fd_token _ _ F k t0 O1 E) as L.
    destruct (syncs c) eqn:Y; [|rewrite (quiet_lam _ _ _ _ _ D Y); exact L].
    destruct (N.le_gt_cases (lam (get w k)) (lam (get w' k))) as [|LT]; [lia|exfalso].
    destruct (syncs_config _ _ _ _ _ D Y) as (c0 & CO & CD).
    destruct (flow_fine _ _ _ _ _ OK S D k) as [_ FL]. destruct (FL LT) as [->|[[-> _]|(P & _)]]; try congruence.
    destruct (sane_cfg _ _ S _ _ (conj CO CD)) as (_ & _ & _ & [V|V] & _); congruence.
  - intros o h H. destruct (kind_did _ _ _ _ _ (e_holder e o) OK S D) as [K|[_ [[? K]|K]]];
      [|congruence|rewrite H in K; contradiction]. rewrite H in K.
    destruct (dat (get w (e_holder e o))) as [| | | | | |h0|] eqn:E; try discriminate K.
    pose proof (fd_holder _ _ F o h0 E) as L.
    destruct (N.eq_dec (own (get w (e_holder e o))) (e_prog e)) as [OP|NP].
    { destruct (sane_kind _ _ S _ OP) as [[? X]|[[? X]|[[? X]|[? X]]]]; congruence. }
    pose proof (foreign_keeps _ _ _ _ _ (e_holder e o) OK S D NP (ok_holder_pda _ OK o)
      (fun m X => ok_pool_holder _ OK m o (eq_sym X))). lia.
Qed.

(** Removing what holds no lamports is something the histories allow. *)
Lemma initialised_lam e w k : env_ok e -> reachable e w -> (forall n, 0 < e_rent e n) -> own (get w k) = e_prog e ->
  0 < lam (get w k) \/ zeroed (dat (get w k)).
Proof.
  intros OK R RP O. pose proof (inv_reachable _ _ OK R) as I. pose proof (i_sane _ _ I) as S.
  destruct (sane_kind _ _ S k O) as [[b D]|[[c D]|D]].
  - right. rewrite D. apply (sane_raw _ _ S k b O D).
  - left. pose proof (i_lamp _ _ I _ _ (conj O D)) as L. specialize (RP CONFIG_LEN). lia.
  - left. assert (stakeish (dat (get w k))) as K by (destruct D as [[? ->]|[? ->]]; exact Logic.I).
    pose proof (stake_rent_reachable _ _ OK R k O K). specialize (RP (data_len (dat (get w k)))). lia.
Qed.
Lemma purge_rely e w : env_ok e -> reachable e w -> (forall n, 0 < e_rent e n) -> funded e w -> rely e w (purge w).
Proof.
  intros OK R RP F. pose proof (inv_reachable _ _ OK R) as I. pose proof (i_sane _ _ I) as S.
  destruct (prog_ids _ OK) as (P0 & PT & PR & TR & _ & _ & T0 & R0). split.
  - intros k O. rewrite get_purge. destruct (N.eqb_spec (lam (get w k)) 0) as [Z|]; [right|left; auto using N.le_refl].
    split; [auto|]. destruct (initialised_lam _ _ k OK R RP O) as [L|ZD]; [lia|]. split; [auto|]. cbn.
    split; [congruence|auto].
  - intros k NO O. rewrite get_purge in O. destruct (N.eqb_spec (lam (get w k)) 0); [cbn in O|]; congruence.
  - intros k P NO. rewrite get_purge. destruct (N.eqb_spec (lam (get w k)) 0) as [Z|]; [|auto using N.le_refl].
    destruct (sane_pda _ _ S k P NO) as [-> ->]. cbn. split; [auto|]. split; [auto|]. lia.
  - intros k t c O D T1 T2 T3. rewrite get_purge. pose proof (fd_token _ _ F k t O D).
    destruct (N.eqb_spec (lam (get w k)) 0); [lia|]. split; [auto|]. exists t. repeat split; auto using N.le_refl.
  - intros c. rewrite get_purge. destruct (N.eqb_spec (lam (get w (e_holder e (e_vault e c)))) 0) as [Z|]; [right|auto].
    split; [|discriminate]. intros h D. pose proof (fd_holder _ _ F _ _ D). lia.
  - intros k. rewrite get_purge. destruct (lam (get w k) =? 0); [|apply (i_wf _ _ I)]. split; cbn; [reflexivity|auto].
Qed.

Lemma within_props e w w' : env_ok e -> reachable e w -> funded e w -> within e w w' -> reachable e w' /\ funded e w'.
Proof.
  intros OK R F. induction 1 as [w|w w1 cx c w2 W IH ST|w w1 w2 W IH ST FF]; [auto| |].
  - destruct (IH R F) as [R1 F1]. split; [eapply reachable_step; eauto|]. inversion ST as [? ? ? ? WC CL RUN|]; subst.
    apply run_ok in RUN as (_ & D & _). eapply funded_did; eauto. apply (inv_reachable _ _ OK R1).
  - destruct (IH R F) as [R1 F1]. split; [eapply reachable_step; eauto|auto].
Qed.
Lemma funded_purge e w : funded e w -> funded e (purge w).
Proof.
  intros F. split.
  - intros k t O D. rewrite get_purge in O, D |- *. destruct (N.eqb_spec (lam (get w k)) 0); [discriminate|lia].
  - intros o h D. rewrite get_purge in D |- *. destruct (N.eqb_spec (lam (get w (e_holder e o))) 0); [discriminate|lia].
Qed.
Lemma tx_props e w w' : env_ok e -> (forall n, 0 < e_rent e n) -> reachable e w -> funded e w -> settled e w -> tx e w w' ->
  reachable e w' /\ funded e w' /\ settled e w'.
Proof.
  intros OK RP R F S (w1 & W & RO & ->). destruct (within_props _ _ _ OK R F W) as [R1 F1].
  split; [|split; [now apply funded_purge|]].
  - eapply reachable_step; [exact R1|]. apply step_other. now apply purge_rely.
  - apply settled_purge. now apply (rent_ok_settled e w).
Qed.
Lemma txs_props e w w' : env_ok e -> (forall n, 0 < e_rent e n) -> reachable e w -> funded e w -> settled e w -> txs e w w' ->
  reachable e w' /\ funded e w' /\ settled e w'.
Proof.
  intros OK RP R F S. induction 1 as [|w w1 w2 T IH X]; [auto|]. destruct (IH R F S) as (R1 & F1 & S1).
  eapply tx_props; eauto.
Qed.
Lemma chain_props e w : env_ok e -> (forall n, 0 < e_rent e n) -> chain e w -> reachable e w /\ funded e w /\ settled e w.
Proof.
  intros OK RP (w0 & G & F & S & T). eapply txs_props; eauto. exists w0, []. split; [auto|constructor].
Qed.
