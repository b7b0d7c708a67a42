(** Which errors every internal step can return, and what it leaves alone on the way. *)
From Verif Require Import Base Types Layout Instr Math External Processor Runtime History Spec
  WorldLemmas Effects Handlers Evolve Sane SpecError.

Definition errs {A} (P : error -> Prop) (r : result A) : Prop := forall x, r = Err x -> P x.
Lemma errs_bind {A B} P (r : result A) (f : A -> result B) :
  errs P r -> (forall a, r = Ok a -> errs P (f a)) -> errs P (bind r f).
Proof. intros R F x H. destruct r as [a|y|]; simpl in H; [apply (F a eq_refl _ H)|injection H as <-; auto|discriminate]. Qed.
Lemma errs_require (P : error -> Prop) b y : (b = false -> P y) -> errs P (require b y).
Proof. intros H x E. destruct b; simpl in E; [discriminate|]. injection E as <-. auto. Qed.
Lemma errs_ok {A} P (a : A) : errs P (Ok a).
Proof. intros x H. discriminate. Qed.
Lemma errs_panic {A} P : errs P (Panic (A := A)).
Proof. intros x H. discriminate. Qed.
Lemma errs_assert P b : errs P (assert b).
Proof. intros x H. destruct b; discriminate. Qed.
Lemma errs_err {A} (P : error -> Prop) x : P x -> errs P (Err (A := A) x).
Proof. intros H y [= <-]. exact H. Qed.
Lemma errs_mono {A} (P Q : error -> Prop) (r : result A) : (forall x, P x -> Q x) -> errs P r -> errs Q r.
Proof. intros I H x E. auto. Qed.
Lemma errs_if {A} P (b : bool) (r s : result A) : (b = true -> errs P r) -> (b = false -> errs P s) -> errs P (if b then r else s).
Proof. destruct b; auto. Qed.
(* one step of an unspecific function *)
Ltac dull :=
  repeat match goal with
  | |- errs _ (Ok _) => apply errs_ok
  | |- errs _ Panic => apply errs_panic
  | |- errs _ (assert _) => apply errs_assert
  | |- errs _ (require _ _) => apply errs_require; intros _; exact I
  | |- errs _ (Err _) => apply errs_err; exact I
  | |- errs _ (bind _ _) => apply errs_bind; [|intros ? _]
  | |- errs _ (if _ then _ else _) => apply errs_if; intros _
  | |- errs _ (match ?x with _ => _ end) => destruct x
  end.
Notation dullness r := (errs unspecific r).
Lemma add64_errs a b : dullness (add64 a b). Proof. unfold add64. dull. Qed.
Lemma csub_errs a b : dullness (csub a b). Proof. unfold csub. dull. Qed.
Lemma elig_errs a b c : dullness (calculate_eligible_rewards a b c).
Proof. unfold calculate_eligible_rewards, mul128, to64. dull. Qed.
Lemma rpt_errs a b : dullness (calculate_stake_rewards_per_token a b).
Proof. unfold calculate_stake_rewards_per_token, mul128. dull. Qed.
Lemma max_errs a : dullness (calculate_maximum_stake a).
Proof. unfold calculate_maximum_stake, mul128, to64. dull. Qed.
Lemma deact_errs a b : dullness (max_deactivation_amount a b).
Proof. unfold max_deactivation_amount, mul128, to64. dull. Qed.
Lemma unpack_config_errs d : dullness (unpack_config d). Proof. unfold unpack_config. dull. Qed.
Lemma unpack_val_errs d : dullness (unpack_val d). Proof. unfold unpack_val. dull. Qed.
Lemma unpack_sol_errs d : dullness (unpack_sol d). Proof. unfold unpack_sol. dull. Qed.
Lemma unpack_token_errs d : dullness (unpack_token d). Proof. unfold unpack_token. dull. Qed.
Lemma unpack_mint_errs d : dullness (unpack_mint d). Proof. unfold unpack_mint. dull. Qed.
Lemma vote_errs d : dullness (vote_withdrawer d). Proof. unfold vote_withdrawer. dull. Qed.
Lemma holder_errs d : dullness (unpack_holder d). Proof. unfold unpack_holder. dull. Qed.
Lemma del_errs d : dullness (del_of d). Proof. unfold del_of. dull. Qed.
Lemma sync_errs w ck : dullness (sync_config_lamports w ck).
Proof. unfold sync_config_lamports. dull; auto using unpack_config_errs, csub_errs, rpt_errs. Qed.
Lemma sync_eff_errs w ck sk a b : dullness (sync_effective w ck sk a b).
Proof. unfold sync_effective. dull; auto using unpack_config_errs, del_errs, max_errs, csub_errs, add64_errs. Qed.
Lemma excess_errs e w a b : dullness (transfer_excess e w a b).
Proof. unfold transfer_excess. cbv zeta. dull. Qed.
Lemma token_at_errs e w k : dullness (token_at e w k). Proof. unfold token_at. dull. Qed.
Lemma mint_at_errs e w k : dullness (mint_at e w k). Proof. unfold mint_at. dull. Qed.
Lemma authorise_errs s t a n : dullness (token_authorise s t a n).
Proof. unfold token_authorise. cbv zeta. dull. Qed.
Lemma transfer_errs e s w a b c d n : dullness (token_transfer e s w a b c d n).
Proof. unfold token_transfer. cbv zeta. dull; auto using token_at_errs, mint_at_errs, authorise_errs. Qed.
Lemma burn_errs e s w a b c n : dullness (token_burn e s w a b c n).
Proof. unfold token_burn. cbv zeta. dull; auto using token_at_errs, mint_at_errs, authorise_errs. Qed.
Lemma assign_errs s w k o : dullness (system_assign s w k o). Proof. unfold system_assign. dull. Qed.
Lemma allocate_errs s w k o : dullness (system_allocate s w k o). Proof. unfold system_allocate. dull. Qed.
Lemma pool_reward_errs a b c : dullness (pool_reward a b c). Proof. unfold pool_reward. cbv zeta. dull. Qed.
Lemma checked_errs e s w a b c d o : dullness (rewards_checked e s w a b c d o).
Proof. unfold rewards_checked. dull; auto using token_at_errs. Qed.
Lemma pay_errs w a b r : dullness (pool_pay w a b r). Proof. unfold pool_pay. cbv zeta. dull. Qed.
Lemma rharvest_errs e s w a b c d o x : dullness (rewards_harvest e s w a b c d o x).
Proof. unfold rewards_harvest. cbv zeta. dull; auto using checked_errs, pool_reward_errs, pay_errs. Qed.
Lemma deposit_errs e s w a b c d o x y z u : dullness (rewards_deposit e s w a b c d o x y z u).
Proof. unfold rewards_deposit. cbv zeta. dull; auto using checked_errs, pool_reward_errs, pay_errs, token_at_errs, transfer_errs. Qed.
Lemma withdraw_errs e s w a b c d o x y z u : dullness (rewards_withdraw e s w a b c d o x y z u).
Proof. unfold rewards_withdraw. cbv zeta. dull; auto using checked_errs, pool_reward_errs, pay_errs, token_at_errs, transfer_errs. Qed.
Lemma runtime_errs cx w w' : dullness (runtime_check cx w w').
Proof. unfold runtime_check. dull. Qed.

(** The steps with something to say. *)
Lemma load_config_errs (P : error -> Prop) e w k : (forall x, unspecific x -> P x) -> (foreign e w k -> P InvalidAccountOwner) ->
  errs P (load_config e w k).
Proof.
  intros U O. unfold load_config. apply errs_bind; [|intros ? _; eapply errs_mono; [exact U|apply unpack_config_errs]].
  apply errs_require. intros H. apply O. unfold foreign. now apply N.eqb_neq.
Qed.
Lemma load_val_errs (P : error -> Prop) e w k ck : (forall x, unspecific x -> P x) -> (foreign e w k -> P InvalidAccountOwner) ->
  (no_stake e w ck k -> P InvalidSeeds) -> errs P (load_val e w k ck).
Proof.
  intros U O S. unfold load_val. apply errs_bind; [|intros ? _].
  { apply errs_require. intros H. apply O. unfold foreign. now apply N.eqb_neq. }
  apply errs_bind; [eapply errs_mono; [exact U|apply unpack_val_errs]|intros v V].
  apply errs_bind; [|intros; apply errs_ok]. apply errs_require. intros H. apply S.
  unfold no_stake, stake_of, stake_in. destruct (dat (get w k)); try (simpl in V; destruct (_ =? _); discriminate).
  injection V as ->. rewrite H. destruct (own _ =? _); reflexivity.
Qed.
Lemma load_sol_errs (P : error -> Prop) e w k ck : (forall x, unspecific x -> P x) -> (foreign e w k -> P InvalidAccountOwner) ->
  (no_stake e w ck k -> P InvalidSeeds) -> errs P (load_sol e w k ck).
Proof.
  intros U O S. unfold load_sol. apply errs_bind; [|intros ? _].
  { apply errs_require. intros H. apply O. unfold foreign. now apply N.eqb_neq. }
  apply errs_bind; [eapply errs_mono; [exact U|apply unpack_sol_errs]|intros v V].
  apply errs_bind; [|intros; apply errs_ok]. apply errs_require. intros H. apply S.
  unfold no_stake, stake_of, stake_in. destruct (dat (get w k)); try (simpl in V; destruct (_ =? _); discriminate).
  injection V as ->. rewrite H. destruct (own _ =? _); reflexivity.
Qed.
Lemma harvest_errs (P : error -> Prop) e w ck vhr auth va sk kp : (forall x, unspecific x -> P x) ->
  (forall d, del_of (dat (get w sk)) = Ok d -> auth <> authority d -> P (Stake InvalidAuthority)) ->
  (vhr <> e_holder e va -> P (Stake InvalidVaultHolderRewardsSeeds)) -> errs P (harvest e w ck vhr auth va sk kp).
Proof.
  intros U A V. pose proof (fun A (r : result A) => errs_mono unspecific P r U) as M. unfold harvest.
  apply errs_bind; [apply M, del_errs|intros d D].
  apply errs_bind; [apply errs_require; intros H; apply (A d D); now apply N.eqb_neq|intros _ _].
  apply errs_bind; [apply M, sync_errs|intros w1 _].
  apply errs_bind; [apply M, unpack_config_errs|intros c _].
  apply errs_bind; [apply M, elig_errs|intros sr _].
  apply errs_bind; [apply errs_require; intros H; apply V; now apply N.eqb_neq|intros _ _].
  apply M. dull; auto using holder_errs, elig_errs, add64_errs, csub_errs.
Qed.
Lemma cpi_errs (P : error -> Prop) w0 w ck sk ks : (forall x, unspecific x -> P x) ->
  (shared ck sk ks -> P AccountBorrowFailed) -> errs P (cpi_check w0 w [ck; sk] ks).
Proof.
  intros U S. unfold cpi_check. apply errs_bind; [|intros ? _; apply errs_require; intros _; now apply U].
  apply errs_require. intros H. apply S. apply negb_false_iff, existsb_exists in H as (k & I & H).
  apply existsb_exists in H as (j & [<-|[<-|[]]] & E); apply N.eqb_eq in E; subst; [now left|now right].
Qed.

(** What the settling steps leave alone. *)
Definition likedel (d d' : delegation) : Prop :=
  staked d' = staked d /\ cooldown d' = cooldown d /\ authority d' = authority d /\ vote d' = vote d.
Definition like (D D' : adata) : Prop :=
  match D, D' with
  | DConfig c, DConfig c' => cfg_vault c' = cfg_vault c /\ cfg_slash c' = cfg_slash c /\ cfg_bps c' = cfg_bps c
  | DVal v, DVal v' => likedel (v_del v) (v_del v')
  | DSol s, DSol s' => likedel (s_del s) (s_del s') /\ s_native s' = s_native s /\ s_lamports s' = s_lamports s
  | DConfig _, _ | DVal _, _ | DSol _, _ => False
  | _, _ => D' = D
  end.
Record alike_w (w w' : world) : Prop := {
  al_own : forall k, own (get w' k) = own (get w k);
  al_dat : forall k, like (dat (get w k)) (dat (get w' k));
}.
Lemma like_refl D : like D D.
Proof. destruct D; simpl; unfold likedel; auto 8. Qed.
Lemma like_trans A B C : like A B -> like B C -> like A C.
Proof.
  destruct A, B; simpl; intros H; try contradiction; try discriminate; destruct C; simpl; intros K; try contradiction; try discriminate;
    unfold likedel in *; intuition congruence.
Qed.
Lemma alike_trans w1 w2 w3 : alike_w w1 w2 -> alike_w w2 w3 -> alike_w w1 w3.
Proof. intros [A B] [C D]. split; intros k; [now rewrite C|]. eapply like_trans; eauto. Qed.
Lemma like_upd D d d' : del_of D = Ok d -> likedel d d' -> like D (upd_del D d').
Proof. destruct D; simpl; intros [= <-] L; auto. Qed.
Lemma harvest_like e w ck vhr auth va sk kp w' : harvest e w ck vhr auth va sk kp = Ok w' -> alike_w w w'.
Proof.
  intros H. destruct (harvest_ok _ _ _ _ _ _ _ _ _ H) as [c d h rpt sr hr Hc Hd Ha Hl Hr Hsr Hv Hh Hhr Hlam Hrent Hkb Hkk Ho Hdat Hlams].
  split; [exact Ho|]. intros k. rewrite Hdat. destruct (N.eqb_spec ck k) as [<-|]; [rewrite Hc; simpl; auto|].
  destruct (N.eqb_spec sk k) as [<-|]; [|apply like_refl]. apply (like_upd _ d); [exact Hd|]. repeat split.
Qed.
Lemma sync_like w ck sk a b w' : sync_effective w ck sk a b = Ok w' -> alike_w w w'.
Proof.
  unfold sync_effective. intros H. stepn H c C. stepn H d D. stepn H l L. stepn H x X. stepn H y Y. injection H as <-.
  assert (dat (get w ck) = DConfig c) as DC by (unfold unpack_config in C; destruct (dat (get w ck)); try (destruct (_ =? _); discriminate); congruence).
  split; intros k; unfold put_del; ws; [reflexivity|].
  destruct (N.eqb_spec ck sk) as [E|E]; [rewrite <- E, DC in D; discriminate|].
  destruct (N.eqb_spec sk k) as [<-|]; [|destruct (N.eqb_spec ck k) as [<-|]; [rewrite DC; simpl; auto|apply like_refl]].
  apply (like_upd _ d); [exact D|]. repeat split.
Qed.
Lemma like_stake e w w' ck k d' : alike_w w w' -> stake_of e w' ck k = Some d' -> exists d, stake_of e w ck k = Some d /\ likedel d d'.
Proof.
  intros [O D] S. unfold stake_of, stake_in in *. rewrite O in S. specialize (D k). destruct (own (get w k) =? e_prog e); [|discriminate].
  destruct (dat (get w' k)) eqn:E'; try discriminate; destruct (dat (get w k)) eqn:E; simpl in D; try contradiction; try discriminate.
  - assert (vote (v_del v) = vote (v_del v0)) as V by apply D. rewrite V in S. destruct (_ =? _); [|discriminate]. injection S as <-. eauto.
  - assert (s_native s = s_native s0) as V by apply D. rewrite V in S. destruct (_ =? _); [|discriminate]. injection S as <-. exists (s_del s0). split; [auto|apply D].
Qed.
Lemma like_none e w w' ck k : alike_w w w' -> no_stake e w' ck k -> no_stake e w ck k.
Proof.
  intros [O D] S. unfold no_stake, stake_of, stake_in in *. rewrite O in S. specialize (D k). destruct (own (get w k) =? e_prog e); [|auto].
  destruct (dat (get w k)) eqn:E; auto; destruct (dat (get w' k)) eqn:E'; simpl in D; try contradiction; try discriminate.
  - assert (vote (v_del v0) = vote (v_del v)) as V by apply D. rewrite V in S. destruct (_ =? _); [discriminate|auto].
  - assert (s_native s0 = s_native s) as V by apply D. rewrite V in S. destruct (_ =? _); [discriminate|auto].
Qed.
Lemma like_config e w w' ck c' : alike_w w w' -> config_at e w' ck c' ->
  exists c, config_at e w ck c /\ cfg_vault c' = cfg_vault c /\ cfg_slash c' = cfg_slash c /\ cfg_bps c' = cfg_bps c.
Proof.
  intros [O D] [O' C]. rewrite O in O'. specialize (D ck). rewrite C in D.
  destruct (dat (get w ck)) eqn:E; simpl in D; try contradiction; try discriminate. exists c. split; [split; auto|auto].
Qed.
Lemma like_token w w' k t : alike_w w w' -> dat (get w' k) = DToken t -> dat (get w k) = DToken t.
Proof. intros [O D] E. specialize (D k). rewrite E in D. destruct (dat (get w k)); simpl in D; try contradiction; congruence. Qed.
