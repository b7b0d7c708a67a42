(** Derived addresses: the search finds the largest bump, and different seeds
    give different addresses. *)
From Coq Require Import String.
From Verif Require Import Base Types Layout History Pda SpecPda.

Lemma create_bump h seeds b prog : seeds_ok seeds ->
  create_program_address h (seeds ++ [[b]]) prog =
  (if h_curve h (h_hash h (preimage h seeds b prog)) then OnCurve
   else Created (h_hash h (preimage h seeds b prog))).
Proof.
  intros [L1 L2]. unfold create_program_address.
  replace (MAX_SEEDS <? length (seeds ++ [[b]]))%nat with false.
  2: { symmetry. apply Nat.ltb_ge. rewrite app_length. simpl. lia. }
  replace (existsb _ _) with false.
  2: { symmetry. rewrite existsb_app. simpl. rewrite orb_false_r. apply not_true_iff_false. intros E.
       apply existsb_exists in E as (s & I & E). apply Nat.ltb_lt in E. specialize (L2 s I). lia. }
  simpl. unfold preimage. rewrite concat_app. simpl. rewrite <- app_assoc. reflexivity.
Qed.

Lemma try_bumps_spec h seeds prog : seeds_ok seeds -> forall n, (n <= 255)%nat ->
  (forall b', N.of_nat n < b' <= 255 -> h_curve h (h_hash h (preimage h seeds b' prog)) = true) ->
  (exists k b, try_bumps h seeds prog n = Some (k, b) /\ derived h seeds prog k b) \/
  (try_bumps h seeds prog n = None /\
   forall b', 1 <= b' <= 255 -> h_curve h (h_hash h (preimage h seeds b' prog)) = true).
Proof.
  intros SO. induction n as [|n IH]; intros LN A.
  - right. split; [reflexivity|]. intros b' B. apply A. lia.
  - cbn [try_bumps]. rewrite create_bump by auto.
    destruct (h_curve h (h_hash h (preimage h seeds (N.of_nat (S n)) prog))) eqn:C.
    + apply IH; [lia|]. intros b' B. destruct (N.eq_dec b' (N.of_nat (S n))) as [->|]; auto. apply A. lia.
    + left. eexists _, _. split; [reflexivity|]. repeat split; auto; lia.
Qed.
Lemma find_spec h seeds prog : hash_ok h -> seeds_ok seeds ->
  exists k b, find_program_address h seeds prog = Some (k, b) /\ derived h seeds prog k b.
Proof.
  intros HO SO. destruct (try_bumps_spec h seeds prog SO 255) as [E|[_ E]]; auto; [lia|].
  destruct (ho_bump h HO seeds prog SO) as (b & B & C). rewrite E in C by auto. discriminate.
Qed.
Lemma derived_unique h seeds prog k b k' b' : derived h seeds prog k b -> derived h seeds prog k' b' ->
  k = k' /\ b = b'.
Proof.
  intros (B & -> & C & M) (B' & -> & C' & M').
  assert (b = b') as <-; auto. destruct (N.lt_trichotomy b b') as [L|[E|L]]; auto.
  - rewrite M in C' by lia. discriminate.
  - rewrite M' in C by lia. discriminate.
Qed.

(** ** No collisions *)
Lemma preimage_inj h : hash_ok h -> forall s s' b b' p p',
  length (List.concat s) = length (List.concat s') -> preimage h s b p = preimage h s' b' p' ->
  List.concat s = List.concat s' /\ p = p'.
Proof.
  intros HO s s' b b' p p' L E. unfold preimage in E. apply app_inj_1 in E as [E1 E2]; auto.
  split; auto. injection E2 as _ E. apply app_inj_1 in E as [E _]; [now apply (ho_bytes h)|].
  now rewrite !(ho_len h HO).
Qed.
Lemma preimage_len h : hash_ok h -> forall s s' b b' p p',
  preimage h s b p = preimage h s' b' p' -> length (List.concat s) = length (List.concat s').
Proof.
  intros HO s s' b b' p p' E. apply (f_equal (length (A := N))) in E. unfold preimage in E.
  rewrite !app_length in E. simpl in E. rewrite !app_length, !(ho_len h HO) in E. lia.
Qed.
Lemma derived_inj h : hash_ok h -> forall s s' p p' k b b',
  derived h s p k b -> derived h s' p' k b' -> List.concat s = List.concat s' /\ p = p'.
Proof.
  intros HO s s' p p' k b b' (_ & E & _) (_ & E' & _). rewrite E in E'. apply (ho_inj h HO) in E'.
  eapply preimage_inj; eauto using preimage_len.
Qed.

(** Key of a found address. *)
Lemma key_derived h seeds prog : hash_ok h -> seeds_ok seeds ->
  derived h seeds prog (key (find_program_address h seeds prog)) (bump (find_program_address h seeds prog)).
Proof. intros HO SO. destruct (find_spec h seeds prog HO SO) as (k & b & -> & D). exact D. Qed.
Lemma key_inj h s s' p p' : hash_ok h -> seeds_ok s -> seeds_ok s' ->
  key (find_program_address h s p) = key (find_program_address h s' p') ->
  List.concat s = List.concat s' /\ p = p'.
Proof.
  intros HO S1 S2 E. pose proof (key_derived h s p HO S1) as D. pose proof (key_derived h s' p' HO S2) as D'.
  rewrite E in D. eapply derived_inj; eauto.
Qed.

(** The program's seed lists. *)
Lemma seeds_ok_1 h s a : hash_ok h -> (length s <= 32)%nat -> seeds_ok [s; h_bytes h a].
Proof.
  intros HO L. unfold seeds_ok, MAX_SEEDS, MAX_SEED_LEN. split; [simpl; lia|].
  intros x [<-|[<-|[]]]; [auto|rewrite (ho_len h HO); auto].
Qed.
Lemma seeds_ok_2 h s a b : hash_ok h -> (length s <= 32)%nat -> seeds_ok [s; h_bytes h a; h_bytes h b].
Proof.
  intros HO L. unfold seeds_ok, MAX_SEEDS, MAX_SEED_LEN. split; [simpl; lia|].
  intros x [<-|[<-|[<-|[]]]]; [auto|rewrite (ho_len h HO); auto..].
Qed.
Ltac short := vm_compute; repeat constructor.
Ltac seeds := first [apply seeds_ok_2; [assumption|short] | apply seeds_ok_1; [assumption|short]].
Lemma concat_1 h s s' a a' : hash_ok h -> length s = length s' ->
  List.concat [s; h_bytes h a] = List.concat [s'; h_bytes h a'] -> s = s' /\ a = a'.
Proof.
  intros HO L E. simpl in E. rewrite !app_nil_r in E. apply app_inj_1 in E as [E1 E2]; auto.
  split; auto. now apply (ho_bytes h).
Qed.
Lemma concat_2 h s s' a a' b b' : hash_ok h -> length s = length s' ->
  List.concat [s; h_bytes h a; h_bytes h b] = List.concat [s'; h_bytes h a'; h_bytes h b'] ->
  s = s' /\ a = a' /\ b = b'.
Proof.
  intros HO L E. simpl in E. rewrite !app_nil_r in E. apply app_inj_1 in E as [E1 E2]; auto.
  apply app_inj_1 in E2 as [E2 E3]; [|now rewrite !(ho_len h HO)].
  repeat split; auto; now apply (ho_bytes h).
Qed.
Ltac lengths HO E :=
  exfalso; apply (f_equal (length (A := N))) in E; simpl in E;
  rewrite ?app_length, ?app_nil_r, ?app_length in E; simpl in E; rewrite ?(ho_len _ HO) in E; simpl in E; lia.

Lemma env_of_ok h prog token rewards votep view duna rent bytes : hash_ok h ->
  NoDup [0; prog; token; rewards; votep; view] ->
  env_ok (env_of h prog token rewards votep view duna rent bytes).
Proof.
  intros HO ND. assert (prog <> rewards) as NE.
  { intros ->. inversion_clear ND as [|? ? _ ND']. inversion_clear ND' as [|? ? I _]. apply I. set_solver. }
  split; simpl; try exact ND;
    unfold find_vault_pda, find_validator_stake_pda, find_sol_staker_stake_pda, find_override_pda,
      find_holder_rewards_pda, find_pool_pda; intros.
  - unfold create_vault_pda, vault_signer_seeds.
    change [str "token-owner"; h_bytes h c; ?b] with ([str "token-owner"; h_bytes h c] ++ [b]).
    rewrite create_bump by seeds.
    destruct (key_derived h [str "token-owner"; h_bytes h c] prog HO) as (_ & E & C & _); [seeds|].
    rewrite <- E, C. reflexivity.
  - apply key_inj in H as [E _]; auto; try seeds. apply concat_2 in E as (_ & E1 & E2); auto.
  - apply key_inj in H as [E _]; auto; try seeds. apply concat_2 in E as (_ & E1 & E2); auto.
  - apply key_inj in H as [E _]; auto; try seeds. apply concat_1 in E as (_ & E1); auto.
  - apply key_inj in H as [E _]; auto; try seeds. apply concat_1 in E as (_ & E1); auto.
  - intros H. apply key_inj in H as [E _]; auto; try seeds. lengths HO E.
  - intros H. apply key_inj in H as [E _]; auto; try seeds. lengths HO E.
  - intros H. apply key_inj in H as [E _]; auto; try seeds. lengths HO E.
  - intros H. apply key_inj in H as [E _]; auto; try seeds. lengths HO E.
  - intros H. apply key_inj in H as [E _]; auto; try seeds. lengths HO E.
  - intros H. apply key_inj in H as [E _]; auto; try seeds. lengths HO E.
  - unfold pda. simpl. unfold find_vault_pda, find_validator_stake_pda, find_sol_staker_stake_pda, find_override_pda.
    intros [(v & c & H)|[(n & c & H)|[(c & H)|(a & c & H)]]];
      (apply key_inj in H as [_ E]; [congruence|auto; seeds..]).
  - unfold pda. simpl. unfold find_vault_pda, find_validator_stake_pda, find_sol_staker_stake_pda, find_override_pda.
    intros [(v & c & H)|[(n & c & H)|[(c & H)|(a & c & H)]]];
      (apply key_inj in H as [_ E]; [congruence|auto; seeds..]).
  - intros H. apply key_inj in H as [E _]; auto; try seeds. lengths HO E.
  - destruct (key_derived h [str "token-owner"; h_bytes h c] prog HO) as (B & _); [seeds|lia].
Qed.
