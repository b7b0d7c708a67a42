(** C87: instructions overwrite exactly their own fields, byte by byte. *)
From Coq Require Import String.
From Verif Require Import Base Types Layout Instr Math External Processor Runtime History Spec
  WorldLemmas Effects Handlers Declared Touches Inv SpecBytes PropClient Demo.
Local Open Scope nat_scope.

(** ** Layout *)

(** The structs have no implicit padding and the lengths the program uses. *)
Theorem C87_no_padding :
  (struct_end config_struct = struct_size config_struct /\ N.of_nat (struct_size config_struct) = CONFIG_LEN) /\
  (struct_end delegation_struct = struct_size delegation_struct) /\
  (struct_end validator_struct = struct_size validator_struct /\ N.of_nat (struct_size validator_struct) = VAL_LEN) /\
  (struct_end staker_struct = struct_size staker_struct /\ N.of_nat (struct_size staker_struct) = SOL_LEN) /\
  (forall ms, In ms [config_struct; delegation_struct; validator_struct; staker_struct] ->
     fold_right (fun m n => m_size m + n) 0 ms = struct_size ms).
Proof.
  repeat split; try (vm_compute; reflexivity).
  intros ms [<-|[<-|[<-|[<-|[]]]]]; vm_compute; reflexivity.
Qed.
Print Assumptions C87_no_padding.

Fixpoint cuts (at_ : nat) (vs : list (string * list N)) : list (string * (nat * nat)) :=
  match vs with [] => [] | (n, b) :: r => (n, (at_, length b)) :: cuts (at_ + length b) r end.
Lemma cuts_fields d : cuts 0 (values d) = fields d.
Proof. destruct d; vm_compute; reflexivity. Qed.
Lemma values_bytes e d : typed d -> concat (map snd (values d)) = raw_bytes e d.
Proof.
  destruct d as [b|c|v|s|t|m|h|wd]; try contradiction; intros _; cbn [raw_bytes values map snd concat].
  - unfold enc_config, disc_config. now rewrite app_nil_r.
  - unfold enc_val, disc_val, enc_delegation, delegation_values. cbn [map snd concat app].
    rewrite ?app_nil_r, <- ?app_assoc. reflexivity.
  - unfold enc_sol, disc_sol, enc_delegation, delegation_values. cbn [map snd concat app].
    rewrite ?app_nil_r, <- ?app_assoc. reflexivity.
Qed.
Lemma cut_slice vs pre n o l : In (n, (o, l)) (cuts (length pre) vs) ->
  In (n, slice (pre ++ concat (map snd vs)) o l) vs.
Proof.
  revert pre. induction vs as [|[m b] r IH]; intros pre; [intros []|]. cbn [cuts map snd concat]. intros [[= <- <- <-]|I].
  - left. f_equal. unfold slice. rewrite drop_app, take_app. reflexivity.
  - right. rewrite app_assoc. apply IH. now rewrite app_length.
Qed.
(** Every field is found where [repr(C)] puts it. *)
Theorem C87_layout e d n o l : In (n, (o, l)) (fields d) -> In (n, slice (raw_bytes e d) o l) (values d).
Proof.
  intros I. assert (typed d) as T by (destruct d; try exact Logic.I; destruct I).
  rewrite <- (values_bytes e d T). rewrite <- cuts_fields in I. apply (cut_slice _ [] _ _ _ I).
Qed.
Print Assumptions C87_layout.

(** ** Overwritten fields *)
Definition names (c : call) (k : pubkey) : list string :=
  flat_map (fun p => if (fst p =? k)%N then snd p else []) (overwrites c).
Definition agree (L : list string) (vs vs' : list (string * list N)) : Prop :=
  Forall2 (fun p p' => fst p = fst p' /\ length (snd p) = length (snd p') /\ (snd p = snd p' \/ In (fst p) L)) vs vs'.
Definition same_kind (d d' : adata) : Prop :=
  match d, d' with DConfig _, DConfig _ | DVal _, DVal _ | DSol _, DSol _ => True | _, _ => False end.
Definition frame (L : list string) (d d' : adata) : Prop := typed d -> same_kind d d' /\ agree L (values d) (values d').

Lemma agree_refl L vs : agree L vs vs.
Proof. induction vs; constructor; auto. Qed.
Lemma frame_refl L d : frame L d d.
Proof. intros T. split; [destruct d; try contradiction; exact I|apply agree_refl]. Qed.
Lemma agree_trans L a b c : agree L a b -> agree L b c -> agree L a c.
Proof.
  intros H. revert c. induction H as [|p q a b (A1 & A2 & A3) H IH]; intros c G; inversion G as [|q' r b' c' (B1 & B2 & B3) G']; subst; constructor; [|now apply IH].
  split; [congruence|]. split; [congruence|]. destruct A3 as [A3|A3]; [|now right].
  destruct B3 as [B3|B3]; [left; congruence|right; rewrite A1; exact B3].
Qed.
Lemma frame_trans L a b c : frame L a b -> frame L b c -> frame L a c.
Proof.
  intros H G T. destruct (H T) as [K A]. assert (typed b) as T' by (destruct a, b; try contradiction; exact I).
  destruct (G T') as [K' A']. split; [destruct a, b, c; try contradiction; exact I|eapply agree_trans; eauto].
Qed.
Lemma frame_incl L L' a b : incl L L' -> frame L a b -> frame L' a b.
Proof.
  intros N H T. destruct (H T) as [K A]. split; auto. clear - A N. induction A as [|p q x y (A1 & A2 & A3)]; constructor; auto.
  split; auto. split; auto. destruct A3; auto.
Qed.
Lemma agree_byte L vs vs' at_ i : agree L vs vs' ->
  nth_error (concat (map snd vs)) i <> nth_error (concat (map snd vs')) i ->
  exists n o l, In n L /\ In (n, (o, l)) (cuts at_ vs) /\ o <= at_ + i < o + l.
Proof.
  intros A. revert at_ i. induction A as [|[n b] [n' b'] vs vs' (A1 & A2 & A3) A IH]; intros at_ i; [intros D; exfalso; now apply D|].
  cbn [fst snd map concat cuts] in *. subst n'. destruct (Nat.lt_ge_cases i (length b)) as [L1|L1].
  - rewrite !nth_error_app1 by lia. intros D. destruct A3 as [->|A3]; [now destruct D|].
    exists n, at_, (length b). split; auto. split; [now left|lia].
  - rewrite !nth_error_app2 by lia. rewrite <- A2. intros D. destruct (IH (at_ + length b) _ D) as (m & o & l & I1 & I2 & I3).
    exists m, o, l. split; auto. split; [now right|lia].
Qed.
Lemma in_names c k n : In n (names c k) -> exists ns, In (k, ns) (overwrites c) /\ In n ns.
Proof.
  intros I. apply in_flat_map in I as ([k' ns] & I1 & I2). cbn [fst snd] in I2.
  destruct (N.eqb_spec k' k) as [->|]; [|destruct I2]. eauto.
Qed.

(** Steps. *)
Definition framed (W : pubkey -> list string) (w w' : world) : Prop := forall k, frame (W k) (dat (get w k)) (dat (get w' k)).
Lemma framed_refl W w : framed W w w.
Proof. intros k. apply frame_refl. Qed.
Lemma framed_trans W w w1 w2 : framed W w w1 -> framed W w1 w2 -> framed W w w2.
Proof. intros A B k. eapply frame_trans; [apply A|apply B]. Qed.
Lemma framed_incl W W' w w' : (forall k, incl (W k) (W' k)) -> framed W w w' -> framed W' w w'.
Proof. intros I A k. eapply frame_incl; [apply I|apply A]. Qed.
Lemma frame_untyped L d d' : ~ typed d -> frame L d d'.
Proof. intros N T. contradiction. Qed.

Lemma incl_names c k ns L : In (k, ns) (overwrites c) -> incl L ns -> incl L (names c k).
Proof.
  intros I J x X. apply in_flat_map. exists (k, ns). split; auto. cbn [fst snd]. rewrite N.eqb_refl. auto.
Qed.
Lemma le_len n x y : length (le_bytes n x) = length (le_bytes n y).
Proof. revert x y. induction n; intros; cbn [le_bytes length]; auto. Qed.
Ltac fld := unfold agree; cbn [values app]; unfold delegation_values; cbn [app];
  repeat apply List.Forall2_cons; try apply List.Forall2_nil;
  (split; [reflexivity|split; [first [reflexivity|apply le_len]|cbn [fst snd]; first [left; reflexivity|right; cbn [In config_settles config_counts stake_settles stake_counts stake_changes stake_pauses]; repeat first [left; reflexivity|right]]]]).
Lemma frame_config_settles c a l :
  frame config_settles (DConfig c) (DConfig (set_cfg_last (set_cfg_acc c a) l)).
Proof. intros _. split; [exact I|]. fld. Qed.
Lemma frame_config_last c l : frame config_settles (DConfig c) (DConfig (set_cfg_last c l)).
Proof. intros _. split; [exact I|]. fld. Qed.
Lemma frame_config_counts c x : frame ["token_amount_effective"%string] (DConfig c) (DConfig (set_cfg_effective c x)).
Proof. intros _. split; [exact I|]. fld. Qed.
Lemma frame_upd L d x y : del_of d = Ok x -> agree L (delegation_values x) (delegation_values y) -> frame L d (upd_del d y).
Proof.
  intros D A _. destruct d; try discriminate; injection D as <-; (split; [exact I|]); cbn [values upd_del set_v_del set_s_del v_del s_del v_total v_min s_lamports s_native].
  all: apply List.Forall2_cons; [auto|]; apply Forall2_app; [exact A|apply agree_refl].
Qed.
Lemma framed_setd W w k d : frame (W k) (dat (get w k)) d -> framed W w (setd w k d).
Proof. intros F k'. unfold setd. rewrite get_put. destruct (N.eqb_spec k k') as [<-|]; [exact F|apply frame_refl]. Qed.
Lemma framed_data W w w' : (forall k, dat (get w' k) = dat (get w k)) -> framed W w w'.
Proof. intros E k. rewrite E. apply frame_refl. Qed.
Lemma framed_put_del W w k L x y : del_of (dat (get w k)) = Ok x -> agree L (delegation_values x) (delegation_values y) ->
  incl L (W k) -> framed W w (put_del w k y).
Proof. intros D A N. apply framed_setd. eapply frame_incl; [exact N|]. eapply frame_upd; eauto. Qed.
Lemma framed_synced W w ck w' : synced_cfg w ck w' -> incl config_settles (W ck) -> framed W w w'.
Proof.
  intros [c rpt Hc Hl Hr ->] N. apply framed_setd. rewrite Hc. eapply frame_incl; [exact N|]. apply frame_config_settles.
Qed.
Lemma framed_harvested W e w ck vhr auth va sk keeper w' : harvested e w ck vhr auth va sk keeper w' ->
  incl config_settles (W ck) -> incl stake_settles (W sk) -> framed W w w'.
Proof.
  intros H N1 N2 k. destruct H. rewrite Hdat. destruct (N.eqb_spec ck k) as [<-|].
  { rewrite Hc. eapply frame_incl; [exact N1|]. apply frame_config_settles. }
  destruct (N.eqb_spec sk k) as [<-|]; [|apply frame_refl].
  eapply frame_incl; [exact N2|]. eapply frame_upd; [exact Hd|]. fld.
Qed.
Lemma framed_resynced W w ck sk l w' : resynced w ck sk l w' ->
  incl ["token_amount_effective"%string] (W ck) -> incl ["delegation.effective_amount"%string] (W sk) -> framed W w w'.
Proof.
  intros H N1 N2 k. destruct H. rewrite Hdat. destruct (N.eqb_spec ck k) as [<-|].
  { rewrite Hc. eapply frame_incl; [exact N1|]. apply frame_config_counts. }
  destruct (N.eqb_spec sk k) as [<-|]; [|apply frame_refl].
  eapply frame_incl; [exact N2|]. eapply frame_upd; [exact Hd|]. fld.
Qed.
Lemma framed_transferred W e sig w src mnt dst auth amount w' : transferred e sig w src mnt dst auth amount w' -> framed W w w'.
Proof.
  intros [] k. rewrite Hdat. destruct (src =? dst)%N; [apply frame_refl|].
  destruct (N.eqb_spec src k) as [<-|]; [apply frame_untyped; rewrite Hs; auto|].
  destruct (N.eqb_spec dst k) as [<-|]; [apply frame_untyped; rewrite Hd; auto|apply frame_refl].
Qed.
Lemma framed_burned W e sig w src mnt auth amount w' : burned e sig w src mnt auth amount w' -> framed W w w'.
Proof.
  intros [] k. rewrite Hdat.
  destruct (N.eqb_spec src k) as [<-|]; [apply frame_untyped; rewrite Hs; auto|].
  destruct (N.eqb_spec mnt k) as [<-|]; [apply frame_untyped; rewrite Hm; auto|apply frame_refl].
Qed.
Lemma framed_rharvested W e sig w pool ptok vhr mnt owner acc w' :
  rharvested e sig w pool ptok vhr mnt owner acc w' -> framed W w w'.
Proof.
  intros [] k. rewrite Hdat. destruct (N.eqb_spec vhr k) as [<-|]; [apply frame_untyped; rewrite Hh; auto|apply frame_refl].
Qed.
Lemma framed_deposited W e sig w pool ptok vhr tacc mnt owner amount acc w' :
  deposited_ok e sig w pool ptok vhr tacc mnt owner amount acc w' -> framed W w w'.
Proof.
  intros []. subst w1. apply framed_trans with w2; [|now apply framed_data].
  eapply framed_trans; [|eapply framed_transferred; exact Hw2]. apply framed_setd. apply frame_untyped. rewrite Hh; auto.
Qed.
Lemma framed_withdrawn W e sig w pool ptok vhr tacc mnt owner amount acc w' :
  withdrawn_ok e sig w pool ptok vhr tacc mnt owner amount acc w' -> framed W w w'.
Proof.
  intros []. subst w1. apply framed_trans with w2; [|now apply framed_data].
  eapply framed_trans; [|eapply framed_transferred; exact Hw2]. apply framed_setd. apply frame_untyped. rewrite Hh; auto.
Qed.

(** Inclusions of the listed names. *)
Ltac nin := eapply incl_names; [cbn [overwrites In]; eauto 6|];
  let x := fresh in intros x; cbn [In config_settles config_counts stake_settles stake_counts stake_changes stake_pauses]; tauto.
Lemma framed_revalidated W e w ck vhr vs vk vauth f w' : revalidated e w ck vhr vs vk vauth f w' ->
  incl config_counts (W ck) -> incl ("total_staked_lamports_amount"%string :: stake_counts) (W vk) -> framed W w w'.
Proof.
  intros [v t w1 w2 H1 Hv Hf H2 H3] N1 N2.
  eapply framed_trans; [eapply framed_harvested; [exact H1| |]|].
  { intros x X. apply N1. now right. }
  { intros x X. apply N2. right. now right. }
  eapply framed_trans; [|eapply framed_resynced; [exact H3| |]].
  - subst w2. apply framed_setd. rewrite Hv. eapply frame_incl; [exact N2|]. intros _. split; [exact I|]. fld.
  - intros x [<-|[]]. apply N1. now left.
  - intros x [<-|[]]. apply N2. right. now left.
Qed.

Lemma framed_did e cx w w' c : did e cx w w' c -> framed (names c) w w'.
Proof.
  intros D. destruct D as [a s au cd b sy du H|a H|a n v H _|a H|a H|a n v H _|a t H|a f H|a H|a n s H _
                          |a H|a n H|a n s H _|a n H|a n H|a H].
  - destruct H. intros k. rewrite Hd. destruct (N.eqb_spec (ic_config a) k) as [<-|]; [|apply frame_refl].
    apply frame_untyped. intros T. destruct (dat (get w (ic_config a))) eqn:ED; try contradiction; discriminate.
  - destruct H. intros k. rewrite Hd. destruct (N.eqb_spec (iv_stake a) k) as [<-|]; [|apply frame_refl].
    apply frame_untyped. rewrite Hsd. auto.
  - destruct H as [c0 Hco Hc0 Hso Hbel [c d w1 w2 w3 w4 H1 Hc Hvp Hva Hpos Hd Hb H2 H3 Hu Hsum1 H4 H5]].
    eapply framed_trans; [eapply framed_harvested; [exact H1|nin|nin]|].
    eapply framed_trans; [|eapply framed_deposited; exact H5].
    eapply framed_trans; [|eapply framed_transferred; exact H4].
    eapply framed_trans; [|eapply framed_resynced; [exact H3|nin|nin]].
    subst w2. eapply framed_put_del with (L := ["delegation.staked_amount"%string]); [exact Hd|fld|nin].
  - destruct H as [c0 c w1 w2 w3 Hco Hc0 Hva H1 H2 Hmin Hex H3 Hov Hc H4].
    eapply framed_trans; [eapply framed_synced; [exact H1|nin]|].
    eapply framed_trans; [eapply framed_rharvested; exact H2|].
    assert (dat (get w3 (hh_config a)) = DConfig c) as Hc3 by (subst w3; ws; exact Hc).
    apply framed_trans with w3.
    + subst w3. apply framed_data. intros k. now ws.
    + subst w'. apply framed_setd. rewrite Hc3. eapply frame_incl with (L := config_settles); [nin|]. apply frame_config_last.
  - destruct H. eapply framed_harvested; [exact H|nin|nin].
  - destruct H as [c0 Hco Hc0 Hso Hbel [c1 c d w1 w2 w3 Hc1 Hva H1 Hc Hset Hau Hsig Hv Hpos Hd H2 H3 H4]].
    eapply framed_trans; [eapply framed_harvested; [exact H1|nin|nin]|].
    eapply framed_trans; [|eapply framed_resynced; [exact H4|nin|nin]].
    apply framed_trans with w2; [|destruct H3 as [[_ ->]|(_ & _ & H3)]; [apply framed_refl|eapply framed_burned; exact H3]].
    subst w2. eapply framed_put_del with (L := ["delegation.staked_amount"%string]); [exact Hd|fld|nin].
  - destruct H as [c Hsig Hco Hc Hau Hne ->]. apply framed_setd. rewrite Hc. destruct t.
    + eapply frame_incl with (L := ["authority"%string]); [nin|]. intros _. split; [exact I|]. fld.
    + eapply frame_incl with (L := ["slash_authority"%string]); [nin|]. intros _. split; [exact I|]. fld.
  - destruct H as [c Hco Hc Hset Hau Hsig Hf ->]. apply framed_setd. rewrite Hc. destruct f.
    + eapply frame_incl with (L := ["cooldown_time_seconds"%string]); [nin|]. intros _. split; [exact I|]. fld.
    + eapply frame_incl with (L := ["max_deactivation_basis_points"%string]); [nin|]. intros _. split; [exact I|]. fld.
    + eapply frame_incl with (L := ["sync_rewards_lamports"%string]); [nin|]. intros _. split; [exact I|]. fld.
  - destruct H. intros k. rewrite Hd. destruct (N.eqb_spec (is_val a) k) as [<-|].
    + rewrite Hv. eapply frame_incl with (L := ["total_staked_lamports_amount"%string]); [nin|]. intros _. split; [exact I|]. fld.
    + destruct (N.eqb_spec (is_stake a) k) as [<-|]; [|apply frame_refl]. apply frame_untyped. rewrite Hsd. auto.
  - destruct H as [c0 Hco Hc0 Hso Hbel [c d w1 w2 w3 w4 H1 Hc Hvp Hva Hpos Hd Hb H2 H3 Hu Hsum1 H4 H5]].
    eapply framed_trans; [eapply framed_harvested; [exact H1|nin|nin]|].
    eapply framed_trans; [|eapply framed_deposited; exact H5].
    eapply framed_trans; [|eapply framed_transferred; exact H4].
    eapply framed_trans; [|eapply framed_resynced; [exact H3|nin|nin]].
    subst w2. eapply framed_put_del with (L := ["delegation.staked_amount"%string]); [exact Hd|fld|nin].
  - destruct H as [c0 s vw Hco Hc0 Hso Hs Hk Hau Hnat Hvw Hsame H1
                  |c0 s vw kp s1 s3 w1 w2 w3 w4 cv cs Hco Hc0 Hso Hs Hk Hau Hnat Hvw Hdiff Hkp H1 Hs1 H2 H3 Hs3 H4 H5].
    + eapply framed_harvested; [exact H1|nin|nin].
    + eapply framed_trans; [eapply framed_harvested; [exact H1|nin|nin]|].
      eapply framed_trans; [|eapply framed_resynced; [exact H5|nin|nin]].
      apply framed_trans with w2; [|apply framed_trans with w3].
      * destruct H2 as [? ? ? H2| ? ? ->]; [|apply framed_refl]. eapply framed_revalidated; [exact H2|nin|nin].
      * destruct H3 as [? ? ? ? ? H3|? ? ? -> ? ?|? -> ? ?]; try apply framed_refl. eapply framed_revalidated; [exact H3|nin|nin].
      * subst w4. apply framed_setd. rewrite Hs3.
        eapply frame_incl with (L := ["delegation.validator_vote"%string; "lamports_amount"%string]); [nin|]. intros _. split; [exact I|]. fld.
  - destruct H. eapply framed_trans; [eapply framed_harvested; [exact H1|nin|nin]|].
    eapply framed_trans; [|eapply framed_transferred; exact H5].
    eapply framed_trans; [|eapply framed_withdrawn; exact H4].
    eapply framed_trans; [|eapply framed_resynced; [exact H3|nin|nin]].
    subst w2. eapply framed_put_del with (L := ["delegation.staked_amount"%string; "delegation.unstake_cooldown"%string]); [exact Hd|fld|nin].
  - destruct H as [c0 Hco Hc0 Hso Hbel [c1 c d w1 w2 w3 Hc1 Hva H1 Hc Hset Hau Hsig Hv Hpos Hd H2 H3 H4]].
    eapply framed_trans; [eapply framed_harvested; [exact H1|nin|nin]|].
    eapply framed_trans; [|eapply framed_resynced; [exact H4|nin|nin]].
    apply framed_trans with w2; [|destruct H3 as [[_ ->]|(_ & _ & H3)]; [apply framed_refl|eapply framed_burned; exact H3]].
    subst w2. eapply framed_put_del with (L := ["delegation.staked_amount"%string]); [exact Hd|fld|nin].
  - destruct H. eapply framed_trans; [eapply framed_harvested; [exact H1|nin|nin]|].
    eapply framed_trans; [eapply framed_harvested; [exact H2|nin|nin]|].
    eapply framed_trans; [|eapply framed_resynced; [exact H6|nin|nin]].
    eapply framed_trans; [|eapply framed_resynced; [exact H5|nin|nin]].
    apply framed_trans with w3.
    + subst w3. eapply framed_put_del with (L := ["delegation.staked_amount"%string]); [rewrite Hs; reflexivity|fld|nin].
    + subst w4. eapply framed_put_del with (x := s_del t) (L := ["delegation.staked_amount"%string; "delegation.unstake_cooldown"%string]); [|fld|nin].
      subst w3. unfold put_del. ws. rewrite (proj2 (N.eqb_neq _ _) (not_eq_sym Hne)), Ht. reflexivity.
  - destruct H. eapply framed_trans; [eapply framed_harvested; [exact H1|nin|nin]|].
    eapply framed_trans; [|eapply framed_resynced; [exact H3|nin|nin]].
    subst w2. apply framed_setd. rewrite Hv. eapply frame_incl with (L := ["total_staked_lamports_amount_min"%string]); [nin|]. intros _. split; [exact I|]. fld.
  - destruct H. subst w'. eapply framed_put_del with (L := ["delegation.authority"%string]); [rewrite Hv; reflexivity|fld|nin].
Qed.

(** ** The theorems *)

(** A byte of an account of the program that an instruction changed belongs to a field
    that instruction is there to overwrite. *)
Theorem C87_bytes e cx c w w' k i : run e cx c w = Ok w' -> typed (dat (get w k)) ->
  nth_error (raw_bytes e (dat (get w' k))) i <> nth_error (raw_bytes e (dat (get w k))) i ->
  may_change c k (dat (get w k)) i.
Proof.
  intros R T D. apply run_ok in R as (_ & H & _). destruct (framed_did _ _ _ _ _ H k T) as [K A].
  assert (typed (dat (get w' k))) as T' by (destruct (dat (get w k)), (dat (get w' k)); try contradiction; exact I).
  rewrite <- !values_bytes in D by auto. apply not_eq_sym in D. destruct (agree_byte _ _ _ 0 _ A D) as (n & o & l & I1 & I2 & I3).
  apply in_names in I1 as (ns & I1 & I4). rewrite cuts_fields in I2. exists ns, n, o, l. auto.
Qed.
Print Assumptions C87_bytes.

(** No account of the program changes its type or its length. *)
Theorem C87_shape e cx c w w' k : run e cx c w = Ok w' -> typed (dat (get w k)) ->
  fields (dat (get w' k)) = fields (dat (get w k)) /\
  length (raw_bytes e (dat (get w' k))) = length (raw_bytes e (dat (get w k))) /\
  firstn 8 (raw_bytes e (dat (get w' k))) = firstn 8 (raw_bytes e (dat (get w k))).
Proof.
  intros R T. apply run_ok in R as (_ & H & _). destruct (framed_did _ _ _ _ _ H k T) as [K A].
  destruct (dat (get w k)), (dat (get w' k)); try contradiction; auto.
Qed.
Print Assumptions C87_shape.

(** The fields nothing overwrites. *)
Definition fixed_fields : list string :=
  ["discriminator"; "_discriminator"; "vault"; "duna_document_hash"; "vault_authority_bump"; "_padding"; "sol_stake"]%string.
Theorem C87_fixed_bytes e cx c w w' k n o l : run e cx c w = Ok w' -> In n fixed_fields -> In (n, (o, l)) (fields (dat (get w k))) ->
  slice (raw_bytes e (dat (get w' k))) o l = slice (raw_bytes e (dat (get w k))) o l.
Proof.
  intros R F P. assert (typed (dat (get w k))) as T by (destruct (dat (get w k)); try exact I; destruct P).
  pose proof (C87_shape _ _ _ _ _ _ R T) as (SH & _).
  assert (In (n, (o, l)) (fields (dat (get w' k)))) as P' by now rewrite SH.
  apply run_ok in R as (_ & H & _). destruct (framed_did _ _ _ _ _ H k T) as [K A].
  assert (~ In n (names c k)) as NI.
  { intros J. apply in_names in J as (ns & J1 & J2). clear - F J1 J2. destruct c; cbn [overwrites In] in J1;
      repeat match goal with J : _ \/ _ |- _ => destruct J as [J|J] end; try contradiction;
      injection J1 as <- <-; cbn [In config_settles config_counts stake_settles stake_counts stake_changes stake_pauses] in J2;
      try destruct t; try destruct f; repeat match goal with J : _ \/ _ |- _ => destruct J as [J|J] end; try contradiction; subst n;
      cbn [In fixed_fields] in F; repeat destruct F as [F|F]; try discriminate; contradiction. }
  apply (C87_layout e) in P, P'.
  assert (forall vs vs' b b', List.NoDup (map fst vs) -> agree (names c k) vs vs' -> In (n, b) vs -> In (n, b') vs' -> b' = b) as U.
  { clear - NI. intros vs vs' b b' ND A. revert ND. induction A as [|[m x] [m' x'] vs vs' (A1 & A2 & A3) A IH]; [intros _ []|].
    cbn [map fst snd] in *. subst m'. intros ND. apply NoDup_cons_iff in ND as [N1 N2].
    assert (map fst vs' = map fst vs) as MM by (clear - A; induction A as [|? ? ? ? (E & _)]; cbn; congruence).
    intros [E1|I1] [E2|I2].
    - apply pair_equal_spec in E1 as [E0 E1], E2 as [_ E2]. subst. destruct A3; [congruence|contradiction].
    - apply pair_equal_spec in E1 as [E0 E1]. exfalso. apply N1. rewrite <- MM, E0. apply (in_map fst) in I2. exact I2.
    - apply pair_equal_spec in E2 as [E0 E2]. exfalso. apply N1. rewrite E0. apply (in_map fst) in I1. exact I1.
    - now apply IH. }
  eapply U; [|exact A|exact P|exact P'].
  destruct (dat (get w k)); try contradiction; cbn; repeat (apply List.NoDup_cons; [cbn; intuition discriminate|]); apply List.NoDup_nil.
Qed.
Print Assumptions C87_fixed_bytes.

(** The instructions that write a value given from outside into one field do exactly that. *)
Ltac byb := cbv -[N.modulo N.div]; reflexivity.
Theorem C87_in_place e cx c w w' k n o l x : run e cx c w = Ok w' -> new_bytes w c = Some x ->
  overwrites c = [(k, [n])] -> In (n, (o, l)) (fields (dat (get w k))) ->
  length x = l /\ raw_bytes e (dat (get w' k)) = splice (raw_bytes e (dat (get w k))) o x.
Proof.
  intros R X O F. apply run_ok in R as (_ & H & _).
  destruct H; cbn [new_bytes] in X; try discriminate; cbn [overwrites] in O; injection O as <- <-.
  - destruct H as [c Hsig Hco Hc Hau Hne ->]. ws. rewrite N.eqb_refl. rewrite Hc in *. injection X as <-. destruct t.
    + assert (o = 8 /\ l = 32) as [-> ->].
      { vm_compute in F. repeat destruct F as [F|F]; try discriminate; try contradiction; injection F; auto. }
      split; [reflexivity|]. byb.
    + assert (o = 40 /\ l = 32) as [-> ->].
      { vm_compute in F. repeat destruct F as [F|F]; try discriminate; try contradiction; injection F; auto. }
      split; [reflexivity|]. byb.
  - destruct H as [c Hco Hc Hset Hau Hsig Hf ->]. ws. rewrite N.eqb_refl. rewrite Hc in *. destruct f as [y|y|y]; injection X as <-.
    + assert (o = 104 /\ l = 8) as [-> ->].
      { vm_compute in F. repeat destruct F as [F|F]; try discriminate; try contradiction; injection F; auto. }
      split; [reflexivity|]. byb.
    + assert (o = 184 /\ l = 2) as [-> ->].
      { vm_compute in F. repeat destruct F as [F|F]; try discriminate; try contradiction; injection F; auto. }
      split; [reflexivity|]. byb.
    + assert (o = 120 /\ l = 8) as [-> ->].
      { vm_compute in F. repeat destruct F as [F|F]; try discriminate; try contradiction; injection F; auto. }
      split; [reflexivity|]. byb.
  - destruct H. rewrite Hvd in X. injection X as <-. subst w'. unfold put_del. ws. rewrite N.eqb_refl. rewrite Hv in *.
    assert (o = 32 /\ l = 32) as [-> ->].
    { vm_compute in F. repeat destruct F as [F|F]; try discriminate; try contradiction; injection F; auto. }
    split; [reflexivity|]. byb.
Qed.
Print Assumptions C87_in_place.

(** ** Nothing in the lists is superfluous: of every instruction there is a run, from a
    reachable state, that changes every field listed for it. *)
Definition set_auth (t : authority_type) (by_ new : N) : act :=
  Call (cx [by_] 0 None 0) (CSetAuthority (SetAuthA kcfg by_ new) t).
Definition update (f : config_field) : act := Call (cx [gov] 0 None 0) (CUpdateConfig (UpdateConfigA kcfg gov) f).
Definition stake_v (v auth src srcauth n acc : N) : act :=
  Call (cx [srcauth] 0 None acc) (CValidatorStakeTokens (stake_accts_of (e_val denv v kcfg) auth src srcauth) n).
Definition bump (n : N) : list act := [Pay carol kcfg 1000000; harvest_holder (n * 10 ^ 18); Pay carol kcfg 777777].
Definition busy : list act :=
  setup ++ bump 1 ++ [stake_v vote1 alice btok bob 200 (10 ^ 18)] ++
  bump 2 ++ [unstake ksol1 bob btok 1000 5000 (2 * 10 ^ 18)] ++
  bump 3 ++ [stake_sol nat1 bob atok alice 100 (3 * 10 ^ 18)] ++
  bump 4 ++ [harvest_val vote1 alice; donate 60] ++
  bump 5 ++ [slash_val vote1 alice 10; stake_v vote2 dave btok bob 2000 (5 * 10 ^ 18); override vote2 dave 100] ++
  bump 6 ++ [harvest_sol nat1 bob vote1 alice vote2 dave (Some carol) (View vote2 bob 700); init_sol nat2 vote2 bob 5000] ++
  bump 7 ++ [move nat1 nat2 bob 500] ++
  bump 8 ++ [slash_sol nat2 bob 50] ++
  bump 9 ++ [override vote1 alice 100; Set_ vote1 (DVote carol); sync_auth vote1;
   update (CooldownTimeSeconds 7); update (MaxDeactivationBasisPoints 77); update (SyncRewardsLamports 3);
   set_auth AuthSlash slasher carol; set_auth AuthConfig gov dave].
Definition changes_in (w w' : world) (k : pubkey) (n : string) : bool :=
  existsb (fun p => String.eqb (fst p) n &&
    negb (bytes_eqb (slice (raw_bytes denv (dat (get w' k))) (fst (snd p)) (snd (snd p)))
                    (slice (raw_bytes denv (dat (get w k))) (fst (snd p)) (snd (snd p))))) (fields (dat (get w k))).
Definition changes_all (w w' : world) (c : call) : bool :=
  forallb (fun p => forallb (changes_in w w' (fst p)) (snd p)) (overwrites c).
Definition act_at (j : nat) : act := nth j busy (Pay 0 0 0).
Definition witness (j : nat) (c0 : call) : Prop :=
  exists cx0 c, act_at j = Call cx0 c /\ runs (firstn j busy ++ [act_at j]) = true /\
    nth_error (pack (instr_of c)) 0 = nth_error (pack (instr_of c0)) 0 /\
    map snd (overwrites c) = map snd (overwrites c0) /\
    changes_all (at_end (firstn j busy)) (at_end (firstn j busy ++ [act_at j])) c = true.
Lemma busy_prefix j : runs (firstn j busy) = true.
Proof.
  do 54 (destruct j as [|j]; [vm_compute; reflexivity|]).
  replace (firstn (54 + j) busy) with busy by reflexivity. vm_compute. reflexivity.
Qed.
Theorem C87_nothing_superfluous c0 : exists w cx0 c w', reachable denv w /\ run denv cx0 c w = Ok w' /\
  nth_error (pack (instr_of c)) 0 = nth_error (pack (instr_of c0)) 0 /\ map snd (overwrites c) = map snd (overwrites c0) /\
  forall k ns n, In (k, ns) (overwrites c) -> In n ns ->
    exists o l, In (n, (o, l)) (fields (dat (get w k))) /\
      slice (raw_bytes denv (dat (get w' k))) o l <> slice (raw_bytes denv (dat (get w k))) o l.
Proof.
  assert (exists j, witness j c0) as [j (cx0 & c & E & R & T & M & A)].
  { assert (forall j cx0 c, act_at j = Call cx0 c -> runs (firstn j busy ++ [act_at j]) = true ->
      nth_error (pack (instr_of c)) 0 = nth_error (pack (instr_of c0)) 0 -> map snd (overwrites c) = map snd (overwrites c0) ->
      changes_all (at_end (firstn j busy)) (at_end (firstn j busy ++ [act_at j])) c = true -> exists j, witness j c0) as W.
    { intros j cx0 c A1 A2 A3 A4 A5. exists j, cx0, c. auto. }
    destruct c0 as [a|a|a n|a|a|a n|a t|a f|a|a n|a|a n|a n|a n|a n|a]; try destruct t; try destruct f.
    Ltac wit j W := let a := eval vm_compute in (act_at j) in
      match a with Call ?x ?c => apply (W j x c); [vm_compute; reflexivity|vm_compute; reflexivity|reflexivity|reflexivity|vm_compute; reflexivity] end.
    - wit 0 W. - wit 1 W. - wit 9 W. - wit 11 W. - wit 21 W. - wit 26 W. - wit 52 W. - wit 51 W.
    - wit 48 W. - wit 49 W. - wit 50 W. - wit 33 W. - wit 17 W. - wit 32 W. - wit 13 W. - wit 41 W. - wit 37 W. - wit 45 W. - wit 47 W. }
  exists (at_end (firstn j busy)), cx0, c, (at_end (firstn j busy ++ [act_at j])).
  split; [apply at_end_reachable, busy_prefix|]. rewrite E in *. split; [apply (at_end_run _ _ _ R)|]. split; [exact T|]. split; [exact M|].
  intros k ns n I1 I2. unfold changes_all in A. rewrite forallb_forall in A. specialize (A _ I1). cbn [fst snd] in A.
  rewrite forallb_forall in A. specialize (A _ I2). apply existsb_exists in A as ([m [o l]] & J1 & J2). cbn [fst snd] in J2.
  apply andb_true_iff in J2 as [J2 J3]. apply String.eqb_eq in J2. subst m. apply negb_true_iff, bool_decide_eq_false in J3. eauto.
Qed.
Print Assumptions C87_nothing_superfluous.

(** The hypotheses are met: [C87_nothing_superfluous] gives a successful run of every
    instruction; here a slash, its bytes and its account. *)
Example C87_bytes_case :
  run denv (cx [slasher] 0 None 0) (CSlashSolStakerStake (SlashA kcfg ksol2 bob slasher kvtok kvhr kpda kmint (e_token denv)) 50)
      (at_end (firstn 41 busy)) = Ok (at_end (firstn 42 busy)) /\
  typed (dat (get (at_end (firstn 41 busy)) ksol2)) /\
  nth_error (raw_bytes denv (dat (get (at_end (firstn 42 busy)) ksol2))) 8 <>
  nth_error (raw_bytes denv (dat (get (at_end (firstn 41 busy)) ksol2))) 8.
Proof.
  split; [|split; [vm_compute; exact I|vm_compute; discriminate]].
  change (firstn 42 busy) with (firstn 41 busy ++ [slash_sol nat2 bob 50]).
  apply at_end_run. vm_compute. reflexivity.
Qed.
Example C87_in_place_case :
  run denv (cx [gov] 0 None 0) (CUpdateConfig (UpdateConfigA kcfg gov) (MaxDeactivationBasisPoints 77))
      (at_end (firstn 49 busy)) = Ok (at_end (firstn 50 busy)) /\
  In ("max_deactivation_basis_points"%string, (184, 2)) (fields (dat (get (at_end (firstn 49 busy)) kcfg))) /\
  In ("vault"%string, (72, 32)) (fields (dat (get (at_end (firstn 49 busy)) kcfg))).
Proof.
  split; [|vm_compute; tauto].
  change (firstn 50 busy) with (firstn 49 busy ++ [update (MaxDeactivationBasisPoints 77)]).
  apply at_end_run. vm_compute. reflexivity.
Qed.
