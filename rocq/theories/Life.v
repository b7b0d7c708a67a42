(** What happens to an account over a stretch of history. *)
From Verif Require Import Base Types Layout Instr Math External Processor Runtime History Spec
  WorldLemmas Effects Handlers Evolve Sane Wf Arith Totals Nets Caps Stakers Deposits Inv.

(** ** Identity fields *)
Definition kept (e : env) (w w' : world) : Prop := forall k, own (get w k) = e_prog e ->
  (forall b, dat (get w k) <> DRaw b) -> own (get w' k) = e_prog e /\ same_id (dat (get w k)) (dat (get w' k)).
Lemma kept_refl e w : kept e w w.
Proof. intros k O _. split; [auto|]. apply same_id_refl. Qed.
Lemma same_id_not_raw d d' : same_id d d' -> (forall b, d <> DRaw b) -> forall b, d' <> DRaw b.
Proof. intros S N b ->. apply same_id_raw in S. eapply N; eauto. Qed.
Lemma kept_trans e w1 w2 w3 : kept e w1 w2 -> kept e w2 w3 -> kept e w1 w3.
Proof.
  intros A B k O N. destruct (A k O N) as [O2 I2].
  destruct (B k O2) as [O3 I3]; [eapply same_id_not_raw; eauto|]. split; [auto|]. eapply same_id_trans; eauto.
Qed.
Lemma kept_evolves e w w' : evolves e w w' -> kept e w w'.
Proof. intros E k O _. split; [rewrite (ev_own _ _ _ E); auto|]. now apply (ev_id _ _ _ E). Qed.
Lemma kept_did e cx w w' c : env_ok e -> sane e w -> did e cx w w' c -> kept e w w'.
Proof.
  intros OK S D. destruct (creates c) eqn:C; [|now apply kept_evolves; eapply did_evolves; eauto].
  destruct D; try discriminate C; clear C.
  - destruct (config_created_facts _ _ _ _ _ _ _ _ _ _ _ OK S H) as (bs & E & _). destruct H. intros k O N. split.
    + rewrite Ho. destruct (_ =? k); auto.
    + rewrite Hd. destruct (N.eqb_spec (ic_config a) k) as [<-|]; [exfalso; eapply N; eauto|apply same_id_refl].
  - destruct H. intros k O _. pose proof (prog_ids e OK) as (P0 & _). split.
    + rewrite Ho. destruct (_ =? k); auto.
    + rewrite Hd. destruct (N.eqb_spec (iv_stake a) k) as [<-|]; [congruence|apply same_id_refl].
  - destruct H. intros k O _. pose proof (prog_ids e OK) as (P0 & _). split.
    + rewrite Ho. destruct (_ =? k); auto.
    + rewrite Hd. destruct (N.eqb_spec (is_val a) k) as [<-|]; [rewrite Hv; reflexivity|].
      destruct (N.eqb_spec (is_stake a) k) as [<-|]; [congruence|apply same_id_refl].
Qed.
Lemma kept_rely e w w' : rely e w w' -> kept e w w'.
Proof.
  intros R k O N. destruct (rely_kept _ _ _ k R O) as (A & B & _); [intros [n Z]; eapply N; eauto|].
  split; [auto|]. rewrite B. apply same_id_refl.
Qed.
Lemma kept_step e w ev w' : env_ok e -> inv e w -> step e w ev w' -> kept e w w'.
Proof.
  intros OK I S. destruct S as [w cx c w' _ _ R|w w' R].
  - apply run_ok in R as (_ & D & _). eapply kept_did; eauto. apply (i_sane _ _ I).
  - now apply kept_rely.
Qed.
Lemma kept_steps e w tr w' : env_ok e -> inv e w -> steps e w tr w' -> kept e w w'.
Proof.
  intros OK I S. induction S as [|w tr w1 ev w2 S IH ST]; [apply kept_refl|].
  eapply kept_trans; [auto|]. eapply kept_step; eauto. eapply inv_steps; eauto.
Qed.
Lemma kept_config e w w' k c : kept e w w' -> config_at e w k c ->
  exists c', config_at e w' k c' /\ cfg_vault c' = cfg_vault c /\ cfg_bump c' = cfg_bump c /\ cfg_duna c' = cfg_duna c.
Proof.
  intros K [O D]. destruct (K k O) as [O' S]; [congruence|]. rewrite D in S.
  apply same_id_config_l in S as (c' & E & A & B & C & _). exists c'. repeat split; auto.
Qed.
Lemma kept_val e w w' k v : kept e w w' -> val_at e w k v ->
  exists v', val_at e w' k v' /\ vote (v_del v') = vote (v_del v).
Proof.
  intros K [O D]. destruct (K k O) as [O' S]; [congruence|]. rewrite D in S.
  apply same_id_val_l in S as (c' & E & A). exists c'. repeat split; auto.
Qed.
Lemma kept_sol e w w' k s : kept e w w' -> sol_at e w k s ->
  exists s', sol_at e w' k s' /\ s_native s' = s_native s /\ authority (s_del s') = authority (s_del s).
Proof.
  intros K [O D]. destruct (K k O) as [O' S]; [congruence|]. rewrite D in S.
  apply same_id_sol_l in S as (c' & E & A & B). exists c'. repeat split; auto.
Qed.

(** ** Validators are re-capped whenever their stake or SOL changes *)
Definition recap (D D' : adata) : Prop :=
  match D with
  | DVal v => exists v', D' = DVal v' /\
      (effective (v_del v') = N.min (staked (v_del v')) (cap (N.max (v_total v') (v_min v'))) \/
       (staked (v_del v') = staked (v_del v) /\ v_total v' = v_total v /\ v_min v' = v_min v /\
        effective (v_del v') = effective (v_del v)))
  | _ => True
  end.
Lemma recap_refl D : recap D D.
Proof. destruct D; simpl; auto. eexists. split; [eauto|]. auto. Qed.
Lemma recap_trans D1 D2 D3 : recap D1 D2 -> recap D2 D3 -> recap D1 D3.
Proof.
  destruct D1; simpl; auto. intros (v2 & -> & A). simpl. intros (v3 & -> & B). exists v3. split; [auto|].
  destruct B as [B|(B1 & B2 & B3 & B4)]; [auto|]. destruct A as [A|(A1 & A2 & A3 & A4)].
  - left. rewrite B1, B2, B3, B4. exact A.
  - right. repeat split; congruence.
Qed.
Definition recaps (e : env) (w w' : world) : Prop := 
  (forall k, own (get w' k) = own (get w k)) /\
  (forall k, own (get w k) = e_prog e -> recap (dat (get w k)) (dat (get w' k))).
Lemma recaps_trans e w1 w2 w3 : recaps e w1 w2 -> recaps e w2 w3 -> recaps e w1 w3.
Proof.
  intros [O1 A] [O2 B]. split; [intros k; now rewrite O2|]. intros k O. eapply recap_trans; [apply A; auto|].
  apply B. now rewrite O1.
Qed.
Lemma recaps_refl e w : recaps e w w.
Proof. split; auto. intros; apply recap_refl. Qed.
Lemma recap_settle c rpt h D : recap D (with_del (settle_del c rpt h) D).
Proof. destruct D; simpl; auto. eexists. split; [reflexivity|]. right. repeat split; reflexivity. Qed.
Lemma recaps_harvest e w ck vhr auth va sk keeper w' : harvested e w ck vhr auth va sk keeper w' -> recaps e w w'.
Proof.
  intros H. destruct (harvested_net _ _ _ _ _ _ _ _ _ H) as (c & d & h & rpt & sr & hr & R & _ & _ & O & _ & C & D & F).
  split; [auto|]. intros k _. destruct (N.eq_dec k ck) as [->|]; [rewrite (rd_c _ _ _ _ _ _ _ _ _ _ _ R); exact I|].
  destruct (N.eq_dec k sk) as [->|]; [rewrite D; apply recap_settle|]. rewrite F; auto. apply recap_refl.
Qed.
Lemma recaps_pframe e w w' : pframe e w w' -> recaps e w w'.
Proof. intros [O D]. split; auto. intros k OK. rewrite D; auto. apply recap_refl. Qed.
Lemma limits_del D2 x : limits (upd_del D2 x) = limits D2.
Proof. destruct D2; reflexivity. Qed.
Lemma recaps_chained e w ck va sk F lim w' : chained e w ck va sk F lim w' ->
  (forall c rpt h, (forall v, dat (get w sk) = DVal v -> exists v2, F (with_del (settle_del c rpt h) (dat (get w sk))) = DVal v2) /\
     lim = limits (F (with_del (settle_del c rpt h) (dat (get w sk))))) -> recaps e w w'.
Proof.
  intros [] HF. split; [auto|]. intros k O. destruct (N.eq_dec k ck) as [->|].
  { rewrite (rd_c _ _ _ _ _ _ _ _ _ _ _ Hrd). exact I. }
  destruct (N.eq_dec k sk) as [->|]; [|rewrite Hoth; auto; apply recap_refl].
  destruct (HF c rpt h) as [A B]. rewrite <- HD2 in A, B. destruct (dat (get w sk)) eqn:E; simpl; auto.
  destruct (A _ eq_refl) as (v2 & E2). rewrite Hsk, E2. simpl. eexists. split; [reflexivity|]. left. simpl.
  rewrite E2 in Hd2. injection Hd2 as <-. rewrite B, E2. reflexivity.
Qed.
Lemma recaps_with_del e w ck va sk g w' : chained e w ck va sk (with_del g) (limits (dat (get w sk))) w' -> recaps e w w'.
Proof.
  intros H. eapply recaps_chained; [exact H|]. intros c rpt h. rewrite !limits_with_del. split; [|auto].
  intros v ->. simpl. eauto.
Qed.
Lemma recaps_revalidated e w ck vhr vs vk vauth f w' : own (get w ck) = e_prog e -> own (get w vk) = e_prog e ->
  revalidated e w ck vhr vs vk vauth f w' -> recaps e w w'.
Proof.
  intros O1 O2 H. destruct (revalidated_net _ _ _ _ _ _ _ _ _ O1 O2 H) as (v & t & E & _ & CH).
  eapply recaps_chained; [exact CH|]. intros c rpt h. rewrite E. simpl. split; eauto.
Qed.
Lemma recaps_moved e w ck sk tk n w' c : dat (get w ck) = DConfig c -> moved_net e w ck sk tk n w' -> recaps e w w'.
Proof.
  intros C []. split; [auto|]. intros k _. destruct (N.eq_dec k ck) as [->|]; [rewrite C; exact I|].
  destruct (N.eq_dec k sk) as [->|]; [rewrite Hs; exact I|]. destruct (N.eq_dec k tk) as [->|]; [rewrite Ht; exact I|].
  rewrite Hoth; auto. apply recap_refl.
Qed.
Lemma recaps_resync_sol e w ck sk lim w' s : dat (get w sk) = DSol s -> resynced w ck sk lim w' -> recaps e w w'.
Proof.
  intros E []. split; [auto|]. intros k _. rewrite Hdat. destruct (N.eqb_spec ck k) as [<-|]; [rewrite Hc; exact I|].
  destruct (N.eqb_spec sk k) as [<-|]; [rewrite E; exact I|]. apply recap_refl.
Qed.
Lemma recaps_setd_sol e w sk s D : dat (get w sk) = DSol s -> recaps e w (setd w sk D).
Proof.
  intros E. split; [intros k; now ws|]. intros k _. ws. destruct (N.eqb_spec sk k) as [<-|]; [rewrite E; exact I|apply recap_refl].
Qed.
Lemma recaps_setd_config e w k c D : dat (get w k) = DConfig c -> recaps e w (setd w k D).
Proof.
  intros E. split; [intros k'; now ws|]. intros k' _. ws. destruct (N.eqb_spec k k') as [<-|]; [rewrite E; exact I|apply recap_refl].
Qed.
Lemma recaps_left e w a s w' : own (get w (hs_config a)) = e_prog e -> left_ok e w a s w' -> recaps e w w'.
Proof. intros O []; [exact (recaps_revalidated _ _ _ _ _ _ _ _ _ O Ho H)|subst; apply recaps_refl]. Qed.
Lemma recaps_joined e w a cv cs w' cv' cs' : own (get w (hs_config a)) = e_prog e ->
  joined_ok e w a cv cs w' cv' cs' -> recaps e w w'.
Proof. intros O []; [exact (recaps_revalidated _ _ _ _ _ _ _ _ _ O Ho H)|subst; apply recaps_refl|subst; apply recaps_refl]. Qed.
Lemma recaps_harvested_sol e cx a w w' : harvested_sol_ok e cx a w w' -> recaps e w w'.
Proof.
  intros []; [eapply recaps_harvest; eauto|].
  pose proof (recaps_harvest _ _ _ _ _ _ _ _ _ H1) as R1.
  assert (own (get w1 (hs_config a)) = e_prog e) as O1 by (rewrite (proj1 R1); auto).
  pose proof (recaps_left _ _ _ _ _ O1 H2) as R2.
  assert (own (get w2 (hs_config a)) = e_prog e) as O2 by (rewrite (proj1 R2); auto).
  pose proof (recaps_joined _ _ _ _ _ _ _ _ O2 H3) as R3.
  eapply recaps_trans; [exact R1|]. eapply recaps_trans; [exact R2|]. eapply recaps_trans; [exact R3|].
  assert (recaps e w3 w4) as R4 by (rewrite H4; eapply recaps_setd_sol; exact Hs3). eapply recaps_trans; [exact R4|].
  eapply recaps_resync_sol; [|exact H5]. rewrite H4. ws. rewrite N.eqb_refl. reflexivity.
Qed.
Lemma recaps_held e cx a w w' : env_ok e -> held_ok e cx a w w' -> recaps e w w'.
Proof.
  intros OK []. assert (recaps e w w1) as R1 by (destruct H1; subst w1; eapply recaps_setd_config; eauto).
  assert (recaps e w1 w2) as R2 by (apply recaps_pframe; eapply pframe_rharvested; eauto).
  eapply recaps_trans; [exact R1|]. eapply recaps_trans; [exact R2|].
  assert (recaps e w2 w3) as R by (subst w3; apply recaps_pframe; split; intros; now ws).
  eapply recaps_trans; [exact R|]. subst w'. eapply recaps_setd_config. subst w3. ws. exact Hc.
Qed.
Lemma recaps_did e cx w w' c : env_ok e -> did e cx w w' c -> creates c = false -> recaps e w w'.
Proof.
  intros OK D C. destruct D; try discriminate C.
  - eapply recaps_with_del, staked_net; eauto.
  - eapply recaps_held; eauto.
  - destruct H. eapply recaps_harvest; eauto.
  - eapply recaps_with_del, slashed_net; eauto.
  - destruct H. subst w'. eapply recaps_setd_config; eauto.
  - destruct H. subst w'. eapply recaps_setd_config; eauto.
  - eapply recaps_with_del, staked_net; eauto.
  - eapply recaps_harvested_sol; eauto.
  - destruct (unstaked_net _ _ _ _ _ _ OK H) as (c0 & _ & CH). eapply recaps_with_del; eauto.
  - eapply recaps_with_del, slashed_net; eauto.
  - pose proof (moved_net_ok _ _ _ _ _ _ H) as M. destruct H. eapply recaps_moved; eauto.
  - destruct (overridden_net _ _ _ _ _ _ H) as (v & E & CH). eapply recaps_chained; [exact CH|].
    intros c rpt h. rewrite E. simpl. split; eauto.
  - destruct H. subst w'. split; [intros k; unfold put_del; now ws|]. intros k _. unfold put_del. ws.
    destruct (N.eqb_spec (sy_stake a) k) as [<-|]; [|apply recap_refl]. rewrite Hv. simpl.
    eexists. split; [reflexivity|]. right. repeat split; reflexivity.
Qed.

(** ** Lamports of stake accounts *)
Definition stakeish (D : adata) : Prop := match D with DVal _ | DSol _ => True | _ => False end.
Definition lam_up (e : env) (w w' : world) : Prop := forall k, own (get w k) = e_prog e -> stakeish (dat (get w k)) ->
  own (get w' k) = e_prog e /\ stakeish (dat (get w' k)) /\ data_len (dat (get w' k)) = data_len (dat (get w k)) /\
  lam (get w k) <= lam (get w' k).
Lemma lam_up_refl e w : lam_up e w w.
Proof. intros k O S. repeat split; auto; lia. Qed.
Lemma lam_up_trans e w1 w2 w3 : lam_up e w1 w2 -> lam_up e w2 w3 -> lam_up e w1 w3.
Proof.
  intros A B k O S. destruct (A k O S) as (O2 & S2 & L2 & M2). destruct (B k O2 S2) as (O3 & S3 & L3 & M3).
  repeat split; auto; [congruence|lia].
Qed.
Lemma lam_up_evolves e w w' : evolves e w w' ->
  (forall k, own (get w k) = e_prog e -> stakeish (dat (get w k)) -> lam (get w k) <= lam (get w' k)) -> lam_up e w w'.
Proof.
  intros E L k O S. specialize (L k O S). pose proof (ev_id _ _ _ E k O) as I. rewrite (ev_own _ _ _ E).
  destruct (dat (get w k)); try contradiction.
  - apply same_id_val_l in I as (v' & -> & _). repeat split; auto.
  - apply same_id_sol_l in I as (v' & -> & _). repeat split; auto.
Qed.
Lemma lam_up_harvest e w ck vhr auth va sk keeper w' : harvested e w ck vhr auth va sk keeper w' -> lam_up e w w'.
Proof.
  intros H. apply lam_up_evolves; [eapply evolves_harvest; eauto|]. destruct H. intros k O S. rewrite Hlams.
  apply paid_lam_ge. intros ->. rewrite Hc in S. exact S.
Qed.
Lemma lam_up_same e w w' : evolves e w w' -> (forall k, lam (get w' k) = lam (get w k)) -> lam_up e w w'.
Proof. intros E L. apply lam_up_evolves; auto. intros k _ _. rewrite L. lia. Qed.
Lemma lam_up_resync e w ck sk lim w' : resynced w ck sk lim w' -> lam_up e w w'.
Proof. intros H. apply lam_up_same; [eapply evolves_resync; eauto|]. now destruct H. Qed.
Lemma lam_up_put_del e w k x y : del_of (dat (get w k)) = Ok x -> vote y = vote x -> authority y = authority x ->
  lam_up e w (put_del w k y).
Proof.
  intros D V A. apply lam_up_same; [eapply evolves_put_del; eauto|]. intros k'. unfold put_del. now ws.
Qed.
Lemma lam_up_setd_val e w k v v' : dat (get w k) = DVal v -> lam_up e w (setd w k (DVal v')).
Proof.
  intros E k' O S. ws. destruct (N.eqb_spec k k') as [<-|]; [rewrite E|]; repeat split; simpl; auto; lia.
Qed.
Lemma lam_up_setd_sol e w k v v' : dat (get w k) = DSol v -> lam_up e w (setd w k (DSol v')).
Proof.
  intros E k' O S. ws. destruct (N.eqb_spec k k') as [<-|]; [rewrite E|]; repeat split; simpl; auto; lia.
Qed.
Lemma lam_up_transferred e sig w src mnt dst auth amount w' : env_ok e ->
  transferred e sig w src mnt dst auth amount w' -> lam_up e w w'.
Proof. intros OK H. apply lam_up_same; [eapply evolves_transferred; eauto|]. now destruct H. Qed.
Lemma lam_up_burned e sig w src mnt auth amount w' : env_ok e ->
  burned e sig w src mnt auth amount w' -> lam_up e w w'.
Proof. intros OK H. apply lam_up_same; [eapply evolves_burned; eauto|]. now destruct H. Qed.
Lemma pay_lam_ge w pool owner r k : k <> pool -> lam (get w k) <= pay_lam w pool owner r k.
Proof.
  intros N. unfold pay_lam. destruct (r =? 0); [lia|]. destruct (N.eqb_spec owner k) as [<-|].
  - destruct (N.eqb_spec pool owner); [congruence|lia].
  - destruct (N.eqb_spec pool k); [congruence|lia].
Qed.
Lemma lam_up_paid e w w' pool owner r : env_ok e -> own (get w pool) = e_rewards e -> evolves e w w' ->
  (forall k, lam (get w' k) = pay_lam w pool owner r k) -> lam_up e w w'.
Proof.
  intros OK O E L. apply lam_up_evolves; auto. intros k OK' _. rewrite L. apply pay_lam_ge. intros ->.
  pose proof (prog_ids e OK) as (_ & _ & P & _). congruence.
Qed.
Lemma lam_up_staked e cx a n w w' : env_ok e -> staked_ok e cx a n w w' -> lam_up e w w'.
Proof.
  intros OK []. eapply lam_up_trans; [eapply lam_up_harvest; eauto|].
  assert (lam_up e w1 w2) as L2 by (rewrite H2; eapply lam_up_put_del; [exact Hd|reflexivity|reflexivity]).
  eapply lam_up_trans; [exact L2|].
  eapply lam_up_trans; [eapply lam_up_resync; eauto|]. eapply lam_up_trans; [eapply lam_up_transferred; eauto|].
  pose proof (evolves_deposited _ _ _ _ _ _ _ _ _ _ _ _ OK H5) as E. destruct H5. exact (lam_up_paid _ _ _ _ _ _ OK Hpo E Hl).
Qed.
Lemma lam_up_unstaked e cx a n w w' : env_ok e -> unstaked_ok e cx a n w w' -> lam_up e w w'.
Proof.
  intros OK []. eapply lam_up_trans; [eapply lam_up_harvest; eauto|].
  assert (lam_up e w1 w2) as L2 by (rewrite H2; eapply lam_up_put_del; [exact Hd|reflexivity|reflexivity]).
  eapply lam_up_trans; [exact L2|].
  eapply lam_up_trans; [eapply lam_up_resync; eauto|]. eapply lam_up_trans; [|eapply lam_up_transferred; eauto].
  pose proof (evolves_withdrawn _ _ _ _ _ _ _ _ _ _ _ _ OK H4) as E. destruct H4. exact (lam_up_paid _ _ _ _ _ _ OK Hpo E Hl).
Qed.
Lemma lam_up_slashed e cx a n w w' : env_ok e -> slashed_ok e cx a n w w' -> lam_up e w w'.
Proof.
  intros OK []. eapply lam_up_trans; [eapply lam_up_harvest; eauto|].
  assert (lam_up e w1 w2) as L2 by (rewrite H2; eapply lam_up_put_del; [exact Hd|reflexivity|reflexivity]).
  eapply lam_up_trans; [exact L2|]. eapply lam_up_trans; [|eapply lam_up_resync; eauto].
  destruct H3 as [(_ & ->)|(_ & _ & H3)]; [apply lam_up_refl|eapply lam_up_burned; eauto].
Qed.
Lemma lam_up_moved e cx a n w w' : moved_ok e cx a n w w' -> lam_up e w w'.
Proof.
  intros []. eapply lam_up_trans; [eapply lam_up_harvest; eauto|]. eapply lam_up_trans; [eapply lam_up_harvest; eauto|].
  assert (lam_up e w2 w3) as L3 by (subst w3; eapply lam_up_put_del; [rewrite Hs; reflexivity|reflexivity|reflexivity]).
  eapply lam_up_trans; [exact L3|].
  assert (lam_up e w3 w4) as L4.
  { subst w4. eapply lam_up_put_del with (x := s_del t); [|reflexivity|reflexivity]. rewrite H3. unfold put_del. ws.
    destruct (N.eqb_spec (mv_source a) (mv_dest a)) as [E|]; [congruence|]. rewrite Ht. reflexivity. }
  eapply lam_up_trans; [exact L4|]. eapply lam_up_trans; eapply lam_up_resync; eauto.
Qed.
Lemma lam_up_revalidated e w ck vhr vs vk vauth f w' : revalidated e w ck vhr vs vk vauth f w' -> lam_up e w w'.
Proof.
  intros []. eapply lam_up_trans; [eapply lam_up_harvest; eauto|].
  assert (lam_up e w1 w2) as L2 by (rewrite H2; eapply lam_up_setd_val; exact Hv).
  eapply lam_up_trans; [exact L2|]. eapply lam_up_resync; eauto.
Qed.
Lemma lam_up_harvested_sol e cx a w w' : harvested_sol_ok e cx a w w' -> lam_up e w w'.
Proof.
  intros []; [eapply lam_up_harvest; eauto|].
  eapply lam_up_trans; [eapply lam_up_harvest; eauto|].
  assert (lam_up e w1 w2) as L2 by (destruct H2; [eapply lam_up_revalidated; eauto|subst; apply lam_up_refl]).
  assert (lam_up e w2 w3) as L3 by (destruct H3; [eapply lam_up_revalidated; eauto|subst; apply lam_up_refl|subst; apply lam_up_refl]).
  eapply lam_up_trans; [exact L2|]. eapply lam_up_trans; [exact L3|].
  assert (lam_up e w3 w4) as L4 by (rewrite H4; eapply lam_up_setd_sol; exact Hs3).
  eapply lam_up_trans; [exact L4|]. eapply lam_up_resync; eauto.
Qed.
Lemma lam_up_held e cx a w w' : env_ok e -> sane e w -> held_ok e cx a w w' -> lam_up e w w'.
Proof.
  intros OK S H. apply lam_up_evolves; [eapply evolves_held; eauto|]. destruct H. intros k O St.
  assert (hh_vault_pda a = e_vault e (hh_config a)) as V by (eapply vault_auth_eq; eauto; split; auto).
  destruct (sane_cfg _ _ S (hh_config a) c0) as (_ & _ & _ & _ & VR); [split; auto|].
  assert (k <> hh_config a) as N1 by (intros ->; rewrite Hc0 in St; exact St).
  assert (k <> hh_vault_pda a) as N2 by (intros ->; rewrite V, VR in St; exact St).
  subst w' w3. ws. destruct (N.eqb_spec (hh_config a) k); [congruence|]. destruct (N.eqb_spec (hh_vault_pda a) k); [congruence|].
  destruct H1, H2. rewrite Hl0. subst w1. rewrite pay_lam_other; auto; ws; [lia|].
  intros ->. pose proof (prog_ids e OK) as (_ & _ & P & _). wsi Hpo. congruence.
Qed.
Lemma lam_up_did e cx w w' c : env_ok e -> sane e w -> did e cx w w' c -> lam_up e w w'.
Proof.
  intros OK S D. pose proof (prog_ids e OK) as (P0 & _). destruct D.
  - destruct (config_created_facts _ _ _ _ _ _ _ _ _ _ _ OK S H) as (bs & E & _). destruct H. intros k O St.
    rewrite Ho, Hd, Hl. destruct (N.eqb_spec (ic_config a) k) as [<-|]; [rewrite E in St; contradiction|].
    split; [destruct (_ =? k); auto|]. repeat split; auto; lia.
  - destruct H. intros k O St. rewrite Ho, Hd, Hl. destruct (N.eqb_spec (iv_stake a) k) as [<-|]; [congruence|].
    repeat split; auto; lia.
  - destruct H. eapply lam_up_staked; eauto.
  - eapply lam_up_held; eauto.
  - destruct H. eapply lam_up_harvest; eauto.
  - destruct H. eapply lam_up_slashed; eauto.
  - destruct H. apply lam_up_same; [eapply (did_evolves e cx w w' (CSetAuthority a t)); auto; constructor; econstructor; eauto|].
    intros k. subst w'. now ws.
  - destruct H. apply lam_up_same; [eapply (did_evolves e cx w w' (CUpdateConfig a f)); auto; constructor; econstructor; eauto|].
    intros k. subst w'. now ws.
  - destruct H. intros k O St. rewrite Ho, Hd, Hl.
    destruct (N.eqb_spec (is_stake a) k) as [EE|]; [congruence|].
    destruct (N.eqb_spec (is_val a) k) as [<-|]; [rewrite Hv|]; repeat split; simpl; auto; lia.
  - destruct H. eapply lam_up_staked; eauto.
  - eapply lam_up_harvested_sol; eauto.
  - eapply lam_up_unstaked; eauto.
  - destruct H. eapply lam_up_slashed; eauto.
  - eapply lam_up_moved; eauto.
  - destruct H. eapply lam_up_trans; [eapply lam_up_harvest; eauto|].
    assert (lam_up e w1 w2) as L2 by (rewrite H2; eapply lam_up_setd_val; exact Hv).
    eapply lam_up_trans; [exact L2|]. eapply lam_up_resync; eauto.
  - destruct H. subst w'. unfold put_del. rewrite Hv. eapply lam_up_setd_val; eauto.
Qed.
Lemma lam_up_rely e w w' : rely e w w' -> lam_up e w w'.
Proof. intros R k O S. destruct (rely_kept _ _ _ k R O) as (A & B & C);
    [intros [n Z]; rewrite Z in S; exact S|]. rewrite B. repeat split; auto. Qed.
Lemma lam_up_step e w ev w' : env_ok e -> inv e w -> step e w ev w' -> lam_up e w w'.
Proof.
  intros OK I S. destruct S as [w cx c w' _ _ R|w w' R]; [|now apply lam_up_rely].
  apply run_ok in R as (_ & D & _). eapply lam_up_did; eauto. apply (i_sane _ _ I).
Qed.
Lemma lam_up_steps e w tr w' : env_ok e -> inv e w -> steps e w tr w' -> lam_up e w w'.
Proof.
  intros OK I S. induction S as [|w tr w1 ev w2 S IH ST]; [apply lam_up_refl|].
  eapply lam_up_trans; [auto|]. eapply lam_up_step; eauto. eapply inv_steps; eauto.
Qed.
Definition stake_rent (e : env) (w : world) : Prop := forall k, own (get w k) = e_prog e -> stakeish (dat (get w k)) ->
  e_rent e (data_len (dat (get w k))) <= lam (get w k).
Lemma stake_rent_step e w ev w' : env_ok e -> inv e w -> stake_rent e w -> step e w ev w' -> stake_rent e w'.
Proof.
  intros OK I SR ST. assert (forall k, own (get w' k) = e_prog e -> stakeish (dat (get w' k)) ->
    (own (get w k) = e_prog e /\ stakeish (dat (get w k))) \/
    e_rent e (data_len (dat (get w' k))) <= lam (get w' k)) as C.
  { intros k O S. pose proof (prog_ids e OK) as (P0 & _). destruct ST as [w cx c w' _ _ R|w w' R].
    - apply run_ok in R as (_ & D & _). destruct (creates c) eqn:CR.
      + destruct D; try discriminate CR.
        * destruct H. rewrite Hd in S. destruct (_ =? k); [contradiction|]. left. split; [|auto].
          rewrite Ho in O. destruct (N.eqb_spec (ic_vault_pda a) k) as [EE|]; [|auto].
          rewrite <- EE, Hve in S. contradiction.
        * destruct H. rewrite Hd, Hl. rewrite Ho in O. rewrite Hd in S. destruct (N.eqb_spec (iv_stake a) k) as [EE|]; auto.
          right. rewrite <- EE. exact Hrent.
        * destruct H. rewrite Hd, Hl. rewrite Ho in O. rewrite Hd in S.
          destruct (N.eqb_spec (is_val a) k) as [EE|].
          { left. rewrite <- EE, Hv. split; [exact Hvo|exact Logic.I]. }
          destruct (N.eqb_spec (is_stake a) k) as [EE|]; auto. right. rewrite <- EE. exact Hrent.
      + left. pose proof (did_evolves _ _ _ _ _ OK D CR) as E. rewrite (ev_own _ _ _ E) in O. split; [auto|].
        pose proof (ev_id _ _ _ E k O) as ID. destruct (dat (get w' k)); try contradiction.
        * apply same_id_val in ID as (v' & -> & _). exact Logic.I.
        * apply same_id_sol in ID as (v' & -> & _). exact Logic.I.
    - left. destruct (rely_back _ _ _ k R O) as [[m Z]|(E & B & _)]; [rewrite Z in S; contradiction|].
      rewrite B in S. auto. }
  intros k O S. destruct (C k O S) as [[O0 S0]|]; auto.
  destruct (lam_up_step _ _ _ _ OK I ST k O0 S0) as (_ & _ & L & M). rewrite L. specialize (SR k O0 S0). lia.
Qed.
Lemma stake_rent_reachable e w : env_ok e -> reachable e w -> stake_rent e w.
Proof.
  intros OK (w0 & tr & G & S). induction S as [w|w tr w1 ev w2 S IH ST].
  - intros k O St. destruct (genesis_raw _ _ _ _ G O eq_refl) as [n E]. rewrite E in St. contradiction.
  - eapply stake_rent_step; eauto. apply inv_reachable; auto. exists w, tr. auto.
Qed.

(** ** Where stake accounts come from *)
Lemma sol_origin e w0 tr w k s : env_ok e -> genesis e w0 -> steps e w0 tr w -> sol_at e w k s ->
  exists cx a vw, In (Do cx (CInitializeSolStakerStake a)) tr /\ is_stake a = k /\ is_native a = s_native s /\
    c_view cx = Some vw /\ authority (s_del s) = vw_withdrawer vw.
Proof.
  intros OK G S. revert k s. induction S as [w|w tr w1 ev w2 S IH ST]; intros k s [O D].
  - destruct (genesis_raw _ _ _ _ G O D) as [n E]. discriminate.
  - specialize (IH G). pose proof (inv_steps _ _ _ _ OK (inv_genesis _ _ OK G) S) as I.
    assert ((exists s1, sol_at e w1 k s1 /\ s_native s = s_native s1 /\ authority (s_del s) = authority (s_del s1)) \/
            exists cx a vw, ev = Do cx (CInitializeSolStakerStake a) /\ is_stake a = k /\ is_native a = s_native s /\
              c_view cx = Some vw /\ authority (s_del s) = vw_withdrawer vw) as C.
    { destruct ST as [w1 cx c w2 _ _ R|w1 w2 R].
      - apply run_ok in R as (_ & DD & _). destruct (creates c) eqn:CR.
        + destruct DD; try discriminate CR; clear CR.
          * destruct H. rewrite Hd in D. destruct (_ =? k); [discriminate|]. left. exists s. split; [|auto]. split; [|auto].
            rewrite Ho in O. destruct (N.eqb_spec (ic_vault_pda a) k) as [EE|]; [|auto]. rewrite <- EE, Hve in D. discriminate.
          * destruct H. rewrite Hd in D. rewrite Ho in O. destruct (_ =? k); [discriminate|]. left. exists s. repeat split; auto.
          * destruct H. rewrite Hd in D. rewrite Ho in O. destruct (N.eqb_spec (is_val a) k); [discriminate|].
            destruct (N.eqb_spec (is_stake a) k) as [EE|].
            -- right. injection D as <-. exists cx, a, vw. repeat split; auto. simpl. destruct Hau as [[_ ->]|[N _]]; auto.
               exfalso. apply N. assert (pda e (is_override a)) as P by (rewrite Hov; right; right; right; eauto).
               destruct (N.eq_dec (own (get w1 (is_override a))) (e_prog e)) as [EO|NO];
                 [|apply (sane_pda _ _ (i_sane _ _ I) _ P NO)].
               exfalso. destruct (sane_kind _ _ (i_sane _ _ I) _ EO) as [[b B]|[[c' B]|[[v' B]|[s' B]]]].
               ++ destruct (sane_raw _ _ (i_sane _ _ I) _ _ EO B) as [_ Z]. destruct (Z P) as (_ & ck & Z').
                  rewrite Hov in Z'. symmetry in Z'. eapply ok_vault_over; eauto.
               ++ destruct (sane_cfg _ _ (i_sane _ _ I) (is_override a) c') as [Z _]; [split; auto|]. contradiction.
               ++ destruct (sane_val _ _ (i_sane _ _ I) (is_override a) v') as (ck & c' & Z & _); [split; auto|].
                  rewrite Hov in Z. symmetry in Z. eapply ok_val_over; eauto.
               ++ destruct (sane_sol _ _ (i_sane _ _ I) (is_override a) s') as (ck & c' & Z & _); [split; auto|].
                  rewrite Hov in Z. symmetry in Z. eapply ok_sol_over; eauto.
            -- left. exists s. repeat split; auto.
        + left. pose proof (did_evolves _ _ _ _ _ OK DD CR) as E. rewrite (ev_own _ _ _ E) in O.
          pose proof (ev_id _ _ _ E k O) as ID. rewrite D in ID. apply same_id_sol in ID as (s1 & E1 & A & B).
          exists s1. repeat split; auto.
      - left. destruct (rely_back _ _ _ k R O) as [[m Z]|(E & B & _)]; [congruence|].
        exists s. repeat split; auto. congruence. }
    destruct C as [(s1 & AT & E1 & E2)|(cx & a & vw & -> & A & B & C & D')].
    + destruct (IH k s1 AT) as (cx & a & vw & IN & A & B & C & D'). exists cx, a, vw.
      rewrite in_app_iff. repeat split; auto; congruence.
    + exists cx, a, vw. rewrite in_app_iff. repeat split; auto. right. left. auto.
Qed.
