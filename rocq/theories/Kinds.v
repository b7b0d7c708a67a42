(** What kind of data an account holds changes only when the program initialises it. *)
From Verif Require Import Base Types Layout Instr Math External Processor Runtime History Spec
  WorldLemmas Effects Handlers Evolve Sane Wf Totals Nets Caps Stakers Deposits Inv Life Gov Flow.

Definition kind (D : adata) : N * N :=
  match D with
  | DRaw b => (0, N.of_nat (length b))
  | DConfig _ => (1, 0) | DVal _ => (2, 0) | DSol _ => (3, 0)
  | DToken _ => (4, 0) | DMint _ => (5, 0) | DHolder _ => (6, 0) | DVote _ => (7, 0)
  end.
Lemma kind_len D D' : kind D = kind D' -> data_len D = data_len D'.
Proof. destruct D, D'; simpl; congruence. Qed.
Definition kframe (w w' : world) : Prop := forall k, kind (dat (get w' k)) = kind (dat (get w k)).
Lemma kframe_refl w : kframe w w.
Proof. intros k. auto. Qed.
Lemma kframe_trans w1 w2 w3 : kframe w1 w2 -> kframe w2 w3 -> kframe w1 w3.
Proof. intros A B k. now rewrite B. Qed.
Lemma kframe_same w w' : (forall k, dat (get w' k) = dat (get w k)) -> kframe w w'.
Proof. intros A k. now rewrite A. Qed.
Lemma kframe_setd w k D : kind D = kind (dat (get w k)) -> kframe w (setd w k D).
Proof. intros A k'. ws. destruct (N.eqb_spec k k') as [<-|]; auto. Qed.
Lemma kind_upd D d x : del_of D = Ok x -> kind (upd_del D d) = kind D.
Proof. destruct D; simpl; auto. Qed.
Lemma kframe_put_del w k d x : del_of (dat (get w k)) = Ok x -> kframe w (put_del w k d).
Proof. intros H. unfold put_del. apply kframe_setd. eapply kind_upd; eauto. Qed.
Lemma kframe_harvest e w ck vhr auth va sk keeper w' : harvested e w ck vhr auth va sk keeper w' -> kframe w w'.
Proof.
  intros [] k. rewrite Hdat. destruct (N.eqb_spec ck k) as [<-|]; [now rewrite Hc|].
  destruct (N.eqb_spec sk k) as [<-|]; [|auto]. eapply kind_upd; eauto.
Qed.
Lemma kframe_resync w ck sk lim w' : resynced w ck sk lim w' -> kframe w w'.
Proof.
  intros [] k. rewrite Hdat. destruct (N.eqb_spec ck k) as [<-|]; [now rewrite Hc|].
  destruct (N.eqb_spec sk k) as [<-|]; [|auto]. eapply kind_upd; eauto.
Qed.
Lemma kframe_synced w ck w' : synced_cfg w ck w' -> kframe w w'.
Proof. intros []. subst w'. apply kframe_setd. now rewrite Hc. Qed.
Lemma kframe_transferred e sig w src mnt dst auth amount w' : transferred e sig w src mnt dst auth amount w' -> kframe w w'.
Proof.
  intros [] k. rewrite Hdat. destruct (N.eqb_spec src dst); [auto|].
  destruct (N.eqb_spec src k) as [<-|]; [now rewrite Hs|]. destruct (N.eqb_spec dst k) as [<-|]; [now rewrite Hd|auto].
Qed.
Lemma kframe_burned e sig w src mnt auth amount w' : burned e sig w src mnt auth amount w' -> kframe w w'.
Proof.
  intros [] k. rewrite Hdat. destruct (N.eqb_spec src k) as [<-|]; [now rewrite Hs|].
  destruct (N.eqb_spec mnt k) as [<-|]; [now rewrite Hm|auto].
Qed.
Lemma kframe_deposited e sig w pool ptok vhr tacc mnt owner amount acc w' :
  deposited_ok e sig w pool ptok vhr tacc mnt owner amount acc w' -> kframe w w'.
Proof.
  intros []. apply kframe_trans with w2; [|now apply kframe_same].
  apply kframe_trans with w1; [|eapply kframe_transferred; eauto]. subst w1. apply kframe_setd. now rewrite Hh.
Qed.
Lemma kframe_withdrawn e sig w pool ptok vhr tacc mnt owner amount acc w' :
  withdrawn_ok e sig w pool ptok vhr tacc mnt owner amount acc w' -> kframe w w'.
Proof.
  intros []. apply kframe_trans with w2; [|now apply kframe_same].
  apply kframe_trans with w1; [|eapply kframe_transferred; eauto]. subst w1. apply kframe_setd. now rewrite Hh.
Qed.
Lemma kframe_rharvested e sig w pool ptok vhr mnt owner acc w' :
  rharvested e sig w pool ptok vhr mnt owner acc w' -> kframe w w'.
Proof. intros [] k. rewrite Hdat. destruct (N.eqb_spec vhr k) as [<-|]; [now rewrite Hh|auto]. Qed.
Lemma kframe_revalidated e w ck vhr vs vk vauth f w' : revalidated e w ck vhr vs vk vauth f w' -> kframe w w'.
Proof.
  intros []. apply kframe_trans with w1; [eapply kframe_harvest; eauto|].
  apply kframe_trans with w2; [|eapply kframe_resync; eauto]. rewrite H2. apply kframe_setd. now rewrite Hv.
Qed.
Lemma kframe_harvested_sol e cx a w w' : harvested_sol_ok e cx a w w' -> kframe w w'.
Proof.
  intros []; [eapply kframe_harvest; eauto|].
  apply kframe_trans with w1; [eapply kframe_harvest; eauto|].
  apply kframe_trans with w2.
  { destruct H2; [eapply kframe_revalidated; eauto|]. rewrite Hw. apply kframe_refl. }
  apply kframe_trans with w3.
  { destruct H3; [eapply kframe_revalidated; eauto| |]; rewrite Hw; apply kframe_refl. }
  apply kframe_trans with w4; [|eapply kframe_resync; eauto]. rewrite H4. apply kframe_setd. now rewrite Hs3.
Qed.
Lemma kframe_slashed e cx a n w w' : slashed_ok e cx a n w w' -> kframe w w'.
Proof.
  intros []. apply kframe_trans with w1; [eapply kframe_harvest; eauto|].
  apply kframe_trans with w2; [rewrite H2; eapply kframe_put_del; eauto|].
  apply kframe_trans with w3; [|eapply kframe_resync; eauto].
  destruct H3 as [[_ ->]|(_ & _ & B)]; [apply kframe_refl|eapply kframe_burned; eauto].
Qed.
Lemma kframe_moved e cx a n w w' : moved_ok e cx a n w w' -> kframe w w'.
Proof.
  intros []. apply kframe_trans with w1; [eapply kframe_harvest; eauto|].
  apply kframe_trans with w2; [eapply kframe_harvest; eauto|].
  apply kframe_trans with w3; [rewrite H3; eapply kframe_put_del; rewrite Hs; reflexivity|].
  apply kframe_trans with w4.
  { rewrite H4. eapply kframe_put_del. rewrite H3. ws.
    destruct (N.eqb_spec (mv_source a) (mv_dest a)); [congruence|]. rewrite Ht. reflexivity. }
  apply kframe_trans with w5; eapply kframe_resync; eauto.
Qed.
Lemma kframe_overridden e cx a n w w' : overridden_ok e cx a n w w' -> kframe w w'.
Proof.
  intros []. apply kframe_trans with w1; [eapply kframe_harvest; eauto|].
  apply kframe_trans with w2; [|eapply kframe_resync; eauto]. rewrite H2. apply kframe_setd. now rewrite Hv.
Qed.
Lemma kframe_staked e cx a n w w' : staked_ok e cx a n w w' -> kframe w w'.
Proof.
  intros []. apply kframe_trans with w1; [eapply kframe_harvest; eauto|].
  apply kframe_trans with w2; [rewrite H2; eapply kframe_put_del; eauto|].
  apply kframe_trans with w3; [eapply kframe_resync; eauto|].
  apply kframe_trans with w4; [eapply kframe_transferred; eauto|eapply kframe_deposited; eauto].
Qed.
Lemma kframe_unstaked e cx a n w w' : unstaked_ok e cx a n w w' -> kframe w w'.
Proof.
  intros []. apply kframe_trans with w1; [eapply kframe_harvest; eauto|].
  apply kframe_trans with w2; [rewrite H2; eapply kframe_put_del; eauto|].
  apply kframe_trans with w3; [eapply kframe_resync; eauto|].
  apply kframe_trans with w4; [eapply kframe_withdrawn; eauto|eapply kframe_transferred; eauto].
Qed.
Lemma kframe_held e cx a w w' : held_ok e cx a w w' -> kframe w w'.
Proof.
  intros []. apply kframe_trans with w1; [eapply kframe_synced; eauto|].
  apply kframe_trans with w2; [eapply kframe_rharvested; eauto|].
  apply kframe_trans with w3; [apply kframe_same; intros k; rewrite H3; now ws|].
  rewrite H4. apply kframe_setd. rewrite H3. ws. now rewrite Hc.
Qed.
(** Whatever changed its kind has just been initialised. *)
Lemma kind_did e cx w w' c k : env_ok e -> sane e w -> did e cx w w' c ->
  kind (dat (get w' k)) = kind (dat (get w k)) \/
  (own (get w' k) = e_prog e /\ ((exists cf, dat (get w' k) = DConfig cf) \/ stakeish (dat (get w' k)))).
Proof.
  intros OK S D. revert k.
  assert (kframe w w' -> forall k, kind (dat (get w' k)) = kind (dat (get w k)) \/
    (own (get w' k) = e_prog e /\ ((exists cf, dat (get w' k) = DConfig cf) \/ stakeish (dat (get w' k))))) as F by (intros F k; left; apply F).
  destruct D.
  - destruct H. intros k. rewrite Hd. destruct (N.eqb_spec (ic_config a) k) as [<-|]; [right|auto].
    split; [|eauto]. rewrite Ho. destruct (N.eqb_spec (ic_vault_pda a) (ic_config a)); [auto|]. destruct Hco; congruence.
  - destruct H. intros k. rewrite Hd. destruct (N.eqb_spec (iv_stake a) k) as [<-|]; [right|auto].
    split; [|simpl; auto]. rewrite Ho, N.eqb_refl. auto.
  - apply F. destruct H. eapply kframe_staked; eauto.
  - apply F. eapply kframe_held; eauto.
  - apply F. destruct H. eapply kframe_harvest; eauto.
  - apply F. destruct H. eapply kframe_slashed; eauto.
  - apply F. destruct H. subst w'. apply kframe_setd. now rewrite Hc.
  - apply F. destruct H. subst w'. apply kframe_setd. now rewrite Hc.
  - destruct H. intros k. rewrite Hd. destruct (N.eqb_spec (is_val a) k) as [<-|]; [rewrite Hv; auto|].
    destruct (N.eqb_spec (is_stake a) k) as [<-|]; [right|auto].
    split; [|simpl; auto]. rewrite Ho. now rewrite N.eqb_refl.
  - apply F. destruct H. eapply kframe_staked; eauto.
  - apply F. eapply kframe_harvested_sol; eauto.
  - apply F. eapply kframe_unstaked; eauto.
  - apply F. destruct H. eapply kframe_slashed; eauto.
  - apply F. eapply kframe_moved; eauto.
  - apply F. eapply kframe_overridden; eauto.
  - apply F. destruct H. subst w'. eapply kframe_put_del. rewrite Hv. reflexivity.
Qed.
