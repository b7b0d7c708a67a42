(** Encoder and decoder lemmas. *)
From Verif Require Import Base Types Layout Instr SpecWire.

Lemma value_le_num b : value b = le_num b.
Proof. reflexivity. Qed.
Lemma le_bytes_length n : forall x, length (le_bytes n x) = n.
Proof. induction n; simpl; intros; auto. Qed.
Lemma le_bytes_bytes n : forall x, bytes (le_bytes n x).
Proof. induction n; simpl; intros; constructor; [apply N.mod_lt; lia|apply IHn]. Qed.
Lemma le_num_bytes n : forall x, x < 256 ^ N.of_nat n -> le_num (le_bytes n x) = x.
Proof.
  induction n; intros x H.
  - simpl in *. lia.
  - cbn [le_bytes le_num]. rewrite IHn.
    + pose proof (N.div_mod x 256 ltac:(lia)). lia.
    + apply N.div_lt_upper_bound; [lia|].
      rewrite Nat2N.inj_succ, N.pow_succ_r in H by lia. exact H.
Qed.
Lemma le_num_lt b : bytes b -> le_num b < 256 ^ N.of_nat (length b).
Proof.
  induction 1; simpl length; [simpl; lia|].
  rewrite Nat2N.inj_succ, N.pow_succ_r by lia. cbn [le_num]. lia.
Qed.
Lemma le_bytes_num b : bytes b -> le_bytes (length b) (le_num b) = b.
Proof.
  induction 1 as [|x r H _ IH]; [reflexivity|]. cbn [length le_num le_bytes].
  rewrite (N.mul_comm 256), N.mod_add, N.mod_small by lia. f_equal.
  rewrite N.div_add, N.div_small by lia. exact IH.
Qed.
Lemma is_le_bytes n x : x < 256 ^ N.of_nat n -> is_le n x (le_bytes n x).
Proof.
  intros H. split; [apply le_bytes_length|split; [apply le_bytes_bytes|]].
  rewrite value_le_num. now apply le_num_bytes.
Qed.
Lemma is_le_eq n x b : is_le n x b -> b = le_bytes n x.
Proof. intros (L & B & V). subst n x. rewrite value_le_num. symmetry. now apply le_bytes_num. Qed.
Lemma is_le_range n x b : is_le n x b -> x < 256 ^ N.of_nat n.
Proof. intros (L & B & V). subst n x. rewrite value_le_num. now apply le_num_lt. Qed.
Lemma is_le_num n x b : is_le n x b -> le_num b = x.
Proof. intros (_ & _ & V). now rewrite value_le_num in V. Qed.
Lemma is_le_length n x b : is_le n x b -> length b = n.
Proof. intros (L & _). auto. Qed.

(** Slicing an append. *)
Lemma num_at_0 n x b r : is_le n x b -> num_at (b ++ r) 0 n = x.
Proof.
  intros H. unfold num_at, slice. rewrite skipn_O. pose proof (is_le_length _ _ _ H) as L. rewrite firstn_app, L, Nat.sub_diag, firstn_O, app_nil_r, <- L, firstn_all.
  eapply is_le_num; eauto.
Qed.
Lemma num_at_skip (b r : list N) m off n : length b = m -> (m <= off)%nat ->
  num_at (b ++ r) off n = num_at r (off - m) n.
Proof.
  intros L H. unfold num_at, slice. f_equal. f_equal. subst m.
  rewrite skipn_app, skipn_all2 by lia. reflexivity.
Qed.
Lemma num_at_end n x b : is_le n x b -> num_at b 0 n = x.
Proof. intros H. rewrite <- (app_nil_r b). now apply num_at_0. Qed.
Lemma slice_0 (b r : list N) n : length b = n -> slice (b ++ r) 0 n = b.
Proof. intros <-. unfold slice. rewrite skipn_O, firstn_app, Nat.sub_diag, firstn_O, app_nil_r. apply firstn_all. Qed.
Lemma slice_skip (b r : list N) m off n : length b = m -> (m <= off)%nat ->
  slice (b ++ r) off n = slice r (off - m) n.
Proof.
  intros L H. unfold slice. f_equal. subst m. rewrite skipn_app, skipn_all2 by lia. reflexivity.
Qed.

(** Splitting a byte list at fixed lengths. *)
Lemma bytes_app a b : bytes (a ++ b) <-> bytes a /\ bytes b.
Proof. apply Forall_app. Qed.
Lemma split_at (b : list N) n : (n <= length b)%nat -> exists p q, b = p ++ q /\ length p = n.
Proof.
  intros H. exists (firstn n b), (skipn n b). split; [symmetry; apply firstn_skipn|].
  rewrite firstn_length. lia.
Qed.
Lemma is_le_intro b n : bytes b -> length b = n -> is_le n (le_num b) b.
Proof. intros B L. split; [auto|split; [auto|apply value_le_num]]. Qed.

Ltac cut_bytes b B n p :=
  let H := fresh in let q := fresh "q" in let E := fresh in let L := fresh "L" in
  destruct (split_at b n) as (p & q & E & L); [lia|];
  subst b; rewrite app_length in *; apply bytes_app in B as [? B]; rename q into b.

(** ** Instructions *)
Ltac skip1 :=
  match goal with
  | H : is_le ?n _ ?b |- context [num_at (?b ++ ?r) ?off ?k] =>
      rewrite (num_at_skip b r n off k (is_le_length _ _ _ H)) by lia
  end.
Ltac fields := repeat (first [erewrite num_at_0 by eassumption | erewrite num_at_end by eassumption | skip1]); simpl Nat.sub.

Lemma wire_unpack i data : wire i data -> unpack data = Ok i.
Proof.
  destruct 1; try reflexivity; cbn [unpack];
    try (unfold amount_ix; rewrite (is_le_length _ _ _ H); simpl Nat.eqb; cbv iota;
         rewrite (num_at_end _ _ _ H); reflexivity).
  - rewrite !app_length.
    rewrite (is_le_length _ _ _ H), (is_le_length _ _ _ H0), (is_le_length _ _ _ H1),
      (is_le_length _ _ _ H2), (is_le_length _ _ _ H3), (is_le_length _ _ _ H4).
    cbn [Nat.add Nat.eqb].
    rewrite (num_at_0 _ _ _ _ H). fields.
    repeat (skip1; simpl Nat.sub). fields. 
    repeat (first [erewrite num_at_0 by eassumption | erewrite num_at_end by eassumption]).
    reflexivity.
Qed.

Lemma amount_wire rest f i : bytes rest -> amount_ix rest f = Ok i ->
  exists x, is_le 8 x rest /\ i = f x.
Proof.
  unfold amount_ix. intros B. destruct (length rest =? 8)%nat eqn:L; [|discriminate].
  intros [= <-]. apply Nat.eqb_eq in L. exists (num_at rest 0 8). split; [|auto].
  pose proof (is_le_intro _ _ B L) as H. now rewrite (num_at_end _ _ _ H).
Qed.

Ltac leaf H := match type of H with Err _ = Ok _ => discriminate H end.
Lemma tag_cases (t : N) : 15 < t \/ t = 0 \/ t = 1 \/ t = 2 \/ t = 3 \/ t = 4 \/ t = 5 \/ t = 6 \/ t = 7 \/
  t = 8 \/ t = 9 \/ t = 10 \/ t = 11 \/ t = 12 \/ t = 13 \/ t = 14 \/ t = 15.
Proof. lia. Qed.
Lemma unpack_big t r : 15 < t -> unpack (t :: r) = Err InvalidInstructionData.
Proof.
  intros H. cbn [unpack]. repeat (destruct t as [|t]; [lia|]).
  do 5 (destruct t as [t|t|]; try reflexivity; try lia).
Qed.

Lemma unpack_wire i data : bytes data -> unpack data = Ok i -> wire i data.
Proof.
  intros B H. destruct data as [|t r]; [discriminate H|].
  apply Forall_cons_1 in B as [_ B].
  destruct (tag_cases t) as [L|C]; [rewrite unpack_big in H by auto; discriminate H|].
  repeat destruct C as [-> | C]; try subst t; cbn [unpack] in H;
    try (injection H as <-; constructor);
    try (apply amount_wire in H as (x & Hx & ->); [constructor; exact Hx|exact B]).
  - destruct (length r =? 114)%nat eqn:L; [|discriminate H]. injection H as <-.
    apply Nat.eqb_eq in L.
    cut_bytes r B 32%nat r1. cut_bytes r B 32%nat r2. cut_bytes r B 8%nat r3. cut_bytes r B 2%nat r4.
    cut_bytes r B 8%nat r5.
    assert (L6 : length r = 32%nat) by lia.
    pose proof (is_le_intro r1 32 ltac:(assumption) ltac:(assumption)) as I1.
    pose proof (is_le_intro r2 32 ltac:(assumption) ltac:(assumption)) as I2.
    pose proof (is_le_intro r3 8 ltac:(assumption) ltac:(assumption)) as I3.
    pose proof (is_le_intro r4 2 ltac:(assumption) ltac:(assumption)) as I4.
    pose proof (is_le_intro r5 8 ltac:(assumption) ltac:(assumption)) as I5.
    pose proof (is_le_intro r 32 ltac:(assumption) ltac:(assumption)) as I6.
    pose proof (W0 _ _ _ _ _ _ _ _ _ _ _ _ I1 I2 I3 I4 I5 I6) as W.
    pose proof (wire_unpack _ _ W) as U. cbn [unpack] in U.
    replace (length (r1 ++ r2 ++ r3 ++ r4 ++ r5 ++ r) =? 114)%nat with true in U
      by (symmetry; apply Nat.eqb_eq; rewrite !app_length; lia).
    injection U as -> -> -> -> -> ->. exact W.
  - destruct r as [|a [|b r]]; try discriminate H.
    + destruct a as [|[p|p|]]; try discriminate H; injection H as <-; constructor.
    + destruct a as [|[p|p|]]; discriminate H.
  - destruct r as [|a r]; [discriminate H|]. apply Forall_cons_1 in B as [_ B].
    assert (C : 2 < a \/ a = 0 \/ a = 1 \/ a = 2) by lia.
    destruct C as [C|[->|[->| ->]]].
    + destruct a as [|[[p|p|]|[p|p|]|]]; try discriminate H; lia.
    + destruct (length r =? 8)%nat eqn:L; [|discriminate H]. injection H as <-. apply Nat.eqb_eq in L.
      pose proof (is_le_intro _ _ B L) as I. rewrite (num_at_end _ _ _ I). constructor. exact I.
    + destruct (length r =? 2)%nat eqn:L; [|discriminate H]. injection H as <-. apply Nat.eqb_eq in L.
      pose proof (is_le_intro _ _ B L) as I. rewrite (num_at_end _ _ _ I). constructor. exact I.
    + destruct (length r =? 8)%nat eqn:L; [|discriminate H]. injection H as <-. apply Nat.eqb_eq in L.
      pose proof (is_le_intro _ _ B L) as I. rewrite (num_at_end _ _ _ I). constructor. exact I.
Qed.

Lemma unpack_total data : (exists i, unpack data = Ok i) \/ unpack data = Err InvalidInstructionData.
Proof.
  destruct data as [|t r]; [now right|].
  destruct (tag_cases t) as [L|C]; [right; now apply unpack_big|].
  repeat destruct C as [-> | C]; try subst t; cbn [unpack]; unfold amount_ix;
    repeat match goal with
    | |- context [if ?b then _ else _] => destruct b
    | |- context [match ?x with [] => _ | _ => _ end] => destruct x
    | |- context [match ?x with N0 => _ | _ => _ end] => destruct x
    | |- context [match ?x with xH => _ | _ => _ end] => destruct x
    end; eauto.
Qed.

Lemma pack_wire i : instr_in_range i -> wire i (pack i).
Proof.
  destruct i as [s a c b y d| | | | | |t|f| | | | | | | |]; cbn [instr_in_range pack]; intros R;
    try (constructor; apply is_le_bytes; exact R); try constructor;
    try (apply is_le_bytes; tauto).
  - destruct t; constructor.
  - destruct f; constructor; apply is_le_bytes; exact R.
Qed.
Lemma wire_fun i j data : wire i data -> wire j data -> i = j.
Proof. intros A B. apply wire_unpack in A, B. congruence. Qed.

(** ** Accounts *)
Lemma del_dec d b : wire_del d b -> dec_delegation b = d.
Proof.
  destruct 1. unfold dec_delegation. rewrite (num_at_0 _ _ _ _ H).
  repeat (skip1; simpl Nat.sub).
  repeat (first [erewrite num_at_0 by eassumption | erewrite num_at_end by eassumption]).
  destruct d; reflexivity.
Qed.
Lemma del_length d b : wire_del d b -> length b = 120%nat.
Proof. destruct 1. rewrite !app_length. repeat (erewrite is_le_length by eassumption). reflexivity. Qed.
Lemma enc_del_wire d : del_in_range d -> wire_del d (enc_delegation d).
Proof. intros (? & ? & ? & ? & ? & ? & ?). constructor; apply is_le_bytes; assumption. Qed.
Lemma wire_del_enc d b : wire_del d b -> b = enc_delegation d.
Proof. destruct 1. unfold enc_delegation. repeat (erewrite <- is_le_eq by eassumption). reflexivity. Qed.
Lemma wire_del_range d b : wire_del d b -> del_in_range d.
Proof.
  destruct 1. unfold del_in_range. 
  repeat match goal with H : is_le _ _ _ |- _ => apply is_le_range in H end. tauto.
Qed.
Lemma bytes_wire_del b : bytes b -> length b = 120%nat -> wire_del (dec_delegation b) b.
Proof.
  intros B L.
  cut_bytes b B 8%nat r1. cut_bytes b B 8%nat r2. cut_bytes b B 8%nat r3. cut_bytes b B 32%nat r4.
  cut_bytes b B 32%nat r5. cut_bytes b B 16%nat r6. assert (L7 : length b = 16%nat) by lia.
  assert (W : wire_del (Del (le_num r1) (le_num r2) (le_num r3) (le_num r4) (le_num r5) (le_num r6) (le_num b))
                (r1 ++ r2 ++ r3 ++ r4 ++ r5 ++ r6 ++ b)).
  { constructor; simpl; apply is_le_intro; assumption. }
  rewrite (del_dec _ _ W). exact W.
Qed.

Ltac lens := repeat match goal with H : is_le _ _ ?b |- context [length ?b] => rewrite (is_le_length _ _ _ H) end.
Ltac skipd :=
  match goal with
  | |- context [num_at (?b ++ ?r) ?off ?k] =>
      is_ground b; rewrite (num_at_skip b r 8 off k eq_refl) by lia
  end.
Lemma config_length c b : wire_config c b -> length b = 192%nat.
Proof. destruct 1. rewrite !app_length. lens. reflexivity. Qed.
Lemma val_length v b : wire_val v b -> length b = 144%nat.
Proof.
  destruct 1. rewrite !app_length. lens.
  rewrite (del_length _ _ H). reflexivity.
Qed.
Lemma sol_length v b : wire_sol v b -> length b = 168%nat.
Proof.
  destruct 1. rewrite !app_length. lens.
  rewrite (del_length _ _ H). reflexivity.
Qed.
Lemma config_dec c b : wire_config c b -> dec_config b = c.
Proof.
  destruct 1. unfold dec_config.
  repeat (skipd; simpl Nat.sub).
  repeat (skip1; simpl Nat.sub).
  repeat (first [erewrite num_at_0 by eassumption | erewrite num_at_end by eassumption]).
  destruct c; reflexivity.
Qed.
Lemma val_dec v b : wire_val v b -> dec_val b = v.
Proof.
  destruct 1. change ([197; 173; 152; 124; 46; 252; 77; 146]) with (disc_val).
  unfold dec_val.
  rewrite (slice_skip disc_val _ 8 8 120 eq_refl) by lia. simpl Nat.sub.
  rewrite slice_0 by (eapply del_length; eassumption).
  erewrite del_dec by eassumption.
  rewrite !(num_at_skip disc_val _ 8 _ _ eq_refl) by lia. simpl Nat.sub.
  rewrite !(num_at_skip d _ 120 _ _ (del_length _ _ H)) by lia. simpl Nat.sub.
  skip1. erewrite num_at_0 by eassumption. simpl Nat.sub. erewrite num_at_end by eassumption.
  destruct v; reflexivity.
Qed.
Lemma sol_dec v b : wire_sol v b -> dec_sol b = v.
Proof.
  destruct 1. change ([192; 163; 150; 81; 162; 252; 198; 62]) with (disc_sol).
  unfold dec_sol.
  rewrite (slice_skip disc_sol _ 8 8 120 eq_refl) by lia. simpl Nat.sub.
  rewrite slice_0 by (eapply del_length; eassumption).
  erewrite del_dec by eassumption.
  rewrite !(num_at_skip disc_sol _ 8 _ _ eq_refl) by lia. simpl Nat.sub.
  rewrite !(num_at_skip d _ 120 _ _ (del_length _ _ H)) by lia. simpl Nat.sub.
  skip1. erewrite num_at_0 by eassumption. simpl Nat.sub. erewrite num_at_end by eassumption.
  destruct s; reflexivity.
Qed.
Lemma config_disc c b : wire_config c b -> slice b 0 8 = disc_config.
Proof. destruct 1. reflexivity. Qed.
Lemma val_disc c b : wire_val c b -> slice b 0 8 = disc_val.
Proof. destruct 1. reflexivity. Qed.
Lemma sol_disc c b : wire_sol c b -> slice b 0 8 = disc_sol.
Proof. destruct 1. reflexivity. Qed.

Lemma enc_config_wire c : config_in_range c -> wire_config c (enc_config c).
Proof. intros (? & ? & ? & ? & ? & ? & ? & ? & ? & ? & ? & ?). constructor; apply is_le_bytes; assumption. Qed.
Lemma enc_val_wire c : val_in_range c -> wire_val c (enc_val c).
Proof. intros (? & ? & ?). constructor; [now apply enc_del_wire| |]; apply is_le_bytes; assumption. Qed.
Lemma enc_sol_wire c : sol_in_range c -> wire_sol c (enc_sol c).
Proof. intros (? & ? & ?). constructor; [now apply enc_del_wire| |]; apply is_le_bytes; assumption. Qed.
Lemma wire_config_enc c b : wire_config c b -> b = enc_config c.
Proof. destruct 1. unfold enc_config. repeat (erewrite <- is_le_eq by eassumption). reflexivity. Qed.
Lemma wire_val_enc c b : wire_val c b -> b = enc_val c.
Proof.
  destruct 1. unfold enc_val. repeat (erewrite <- is_le_eq by eassumption).
  erewrite <- wire_del_enc by eassumption. reflexivity.
Qed.
Lemma wire_sol_enc c b : wire_sol c b -> b = enc_sol c.
Proof.
  destruct 1. unfold enc_sol. repeat (erewrite <- is_le_eq by eassumption).
  erewrite <- wire_del_enc by eassumption. reflexivity.
Qed.

Lemma slice_split (b : list N) p : slice b 0 8 = p -> exists q, b = p ++ q.
Proof. intros <-. unfold slice. rewrite skipn_O. exists (skipn 8 b). symmetry. apply firstn_skipn. Qed.
Lemma bytes_wire_config b : bytes b -> length b = 192%nat -> slice b 0 8 = disc_config ->
  wire_config (dec_config b) b.
Proof.
  intros B L D. destruct (slice_split _ _ D) as (q & ->). clear D.
  apply bytes_app in B as [_ B]. rewrite app_length in L. change (length disc_config) with 8%nat in L.
  cut_bytes q B 32%nat r1. cut_bytes q B 32%nat r2. cut_bytes q B 32%nat r3. cut_bytes q B 8%nat r4.
  cut_bytes q B 8%nat r5. cut_bytes q B 8%nat r6. cut_bytes q B 8%nat r7. cut_bytes q B 32%nat r8.
  cut_bytes q B 16%nat r9. cut_bytes q B 2%nat r10. cut_bytes q B 1%nat r11.
  assert (L12 : length q = 5%nat) by lia.
  assert (W : wire_config (Cfg (le_num r1) (le_num r2) (le_num r3) (le_num r4) (le_num r5) (le_num r6)
                (le_num r7) (le_num r8) (le_num r9) (le_num r10) (le_num r11) (le_num q))
                (disc_config ++ r1 ++ r2 ++ r3 ++ r4 ++ r5 ++ r6 ++ r7 ++ r8 ++ r9 ++ r10 ++ r11 ++ q)).
  { constructor; cbn; apply is_le_intro; assumption. }
  rewrite (config_dec _ _ W). exact W.
Qed.
Lemma bytes_wire_val b : bytes b -> length b = 144%nat -> slice b 0 8 = disc_val ->
  wire_val (dec_val b) b.
Proof.
  intros B L D. destruct (slice_split _ _ D) as (q & ->). clear D.
  apply bytes_app in B as [_ B]. rewrite app_length in L. change (length disc_val) with 8%nat in L.
  cut_bytes q B 120%nat r1. cut_bytes q B 8%nat r2. assert (L3 : length q = 8%nat) by lia.
  assert (W : wire_val (VStake (dec_delegation r1) (le_num r2) (le_num q)) (disc_val ++ r1 ++ r2 ++ q)).
  { constructor; cbn [v_del v_total v_min]; [now apply bytes_wire_del| |]; apply is_le_intro; assumption. }
  rewrite (val_dec _ _ W). exact W.
Qed.
Lemma bytes_wire_sol b : bytes b -> length b = 168%nat -> slice b 0 8 = disc_sol ->
  wire_sol (dec_sol b) b.
Proof.
  intros B L D. destruct (slice_split _ _ D) as (q & ->). clear D.
  apply bytes_app in B as [_ B]. rewrite app_length in L. change (length disc_sol) with 8%nat in L.
  cut_bytes q B 120%nat r1. cut_bytes q B 8%nat r2. assert (L3 : length q = 32%nat) by lia.
  assert (W : wire_sol (SStake (dec_delegation r1) (le_num r2) (le_num q)) (disc_sol ++ r1 ++ r2 ++ q)).
  { constructor; cbn [s_del s_lamports s_native]; [now apply bytes_wire_del| |]; apply is_le_intro; assumption. }
  rewrite (sol_dec _ _ W). exact W.
Qed.

Lemma unpack_bytes_ok {A} len disc (dec : list N -> A) b a :
  unpack_bytes len disc dec b = Ok a <-> length b = len /\ slice b 0 8 = disc /\ a = dec b.
Proof.
  unfold unpack_bytes, require, bytes_eqb. split.
  - destruct (length b =? len)%nat eqn:E; [|discriminate]. cbn [bind].
    destruct (bool_decide _) eqn:F; [|discriminate]. cbn [bind]. intros [= <-].
    apply Nat.eqb_eq in E. apply bool_decide_eq_true in F. auto.
  - intros (E & F & ->). rewrite (proj2 (Nat.eqb_eq _ _) E). cbn [bind].
    rewrite bool_decide_eq_true_2 by auto. reflexivity.
Qed.
Lemma config_unpack b c : bytes b ->
  unpack_bytes 192 disc_config dec_config b = Ok c <-> wire_config c b.
Proof.
  intros B. rewrite unpack_bytes_ok. split.
  - intros (L & D & ->). now apply bytes_wire_config.
  - intros W. split; [eapply config_length; eauto|split; [eapply config_disc; eauto|]].
    symmetry. eapply config_dec; eauto.
Qed.
Lemma val_unpack b c : bytes b ->
  unpack_bytes 144 disc_val dec_val b = Ok c <-> wire_val c b.
Proof.
  intros B. rewrite unpack_bytes_ok. split.
  - intros (L & D & ->). now apply bytes_wire_val.
  - intros W. split; [eapply val_length; eauto|split; [eapply val_disc; eauto|]].
    symmetry. eapply val_dec; eauto.
Qed.
Lemma sol_unpack b c : bytes b ->
  unpack_bytes 168 disc_sol dec_sol b = Ok c <-> wire_sol c b.
Proof.
  intros B. rewrite unpack_bytes_ok. split.
  - intros (L & D & ->). now apply bytes_wire_sol.
  - intros W. split; [eapply sol_length; eauto|split; [eapply sol_disc; eauto|]].
    symmetry. eapply sol_dec; eauto.
Qed.
Lemma bytes_eqb_eq a b : bytes_eqb a b = true <-> a = b.
Proof. unfold bytes_eqb. apply bool_decide_eq_true. Qed.
Ltac ifs := repeat match goal with |- context [if (?x && ?y) then _ else _] => destruct (x && y) end.
Lemma decode_config b c : bytes b -> decode b = DConfig c <-> wire_config c b.
Proof.
  intros B. unfold decode. split.
  - match goal with |- context [if ?x then _ else _] => destruct x eqn:E end.
    + intros [= <-]. apply andb_prop in E as [L D]. apply Nat.eqb_eq in L. apply bytes_eqb_eq in D.
      now apply bytes_wire_config.
    + ifs; discriminate.
  - intros W. rewrite (config_length _ _ W), (config_disc _ _ W), (config_dec _ _ W). reflexivity.
Qed.
Lemma decode_val b c : bytes b -> decode b = DVal c <-> wire_val c b.
Proof.
  intros B. unfold decode. split.
  - destruct ((length b =? 192)%nat && _); [discriminate|]. destruct ((length b =? 144)%nat && _) eqn:E.
    + intros [= <-]. apply andb_prop in E as [L D]. apply Nat.eqb_eq in L. apply bytes_eqb_eq in D.
      now apply bytes_wire_val.
    + ifs; discriminate.
  - intros W. rewrite (val_length _ _ W), (val_disc _ _ W), (val_dec _ _ W). reflexivity.
Qed.
Lemma decode_sol b c : bytes b -> decode b = DSol c <-> wire_sol c b.
Proof.
  intros B. unfold decode. split.
  - destruct ((length b =? 192)%nat && _); [discriminate|]. destruct ((length b =? 144)%nat && _); [discriminate|].
    destruct ((length b =? 168)%nat && _) eqn:E.
    + intros [= <-]. apply andb_prop in E as [L D]. apply Nat.eqb_eq in L. apply bytes_eqb_eq in D.
      now apply bytes_wire_sol.
    + discriminate.
  - intros W. rewrite (sol_length _ _ W), (sol_disc _ _ W), (sol_dec _ _ W). reflexivity.
Qed.
(** The typed unpackers used by the handlers agree with the byte-level ones. *)
Lemma unpack_config_bytes b : unpack_config (decode b) = unpack_bytes 192 disc_config dec_config b.
Proof.
  unfold decode, unpack_bytes, require.
  destruct (length b =? 192)%nat eqn:L1; cbn [andb].
  - apply Nat.eqb_eq in L1. destruct (bytes_eqb _ disc_config) eqn:D; [reflexivity|].
    rewrite L1. cbn. rewrite L1. reflexivity.
  - assert (X : (N.of_nat (length b) =? 192) = false) by (apply Nat.eqb_neq in L1; apply N.eqb_neq; lia).
    ifs; try reflexivity; cbn; unfold CONFIG_LEN; rewrite X; reflexivity.
Qed.
Lemma unpack_val_bytes b : unpack_val (decode b) = unpack_bytes 144 disc_val dec_val b.
Proof.
  unfold decode, unpack_bytes, require.
  destruct (length b =? 144)%nat eqn:L1; cbn [andb].
  - apply Nat.eqb_eq in L1. rewrite L1. cbn [Nat.eqb andb]. destruct (bytes_eqb _ disc_val) eqn:D; [reflexivity|].
    cbn. rewrite L1. reflexivity.
  - assert (X : (N.of_nat (length b) =? 144) = false) by (apply Nat.eqb_neq in L1; apply N.eqb_neq; lia).
    ifs; try reflexivity; cbn; unfold VAL_LEN; rewrite X; reflexivity.
Qed.
Lemma unpack_sol_bytes b : unpack_sol (decode b) = unpack_bytes 168 disc_sol dec_sol b.
Proof.
  unfold decode, unpack_bytes, require.
  destruct (length b =? 168)%nat eqn:L1; cbn [andb].
  - apply Nat.eqb_eq in L1. rewrite L1. cbn [Nat.eqb andb]. destruct (bytes_eqb _ disc_sol) eqn:D; [reflexivity|].
    cbn. rewrite L1. reflexivity.
  - assert (X : (N.of_nat (length b) =? 168) = false) by (apply Nat.eqb_neq in L1; apply N.eqb_neq; lia).
    ifs; try reflexivity; cbn; unfold SOL_LEN; rewrite X; reflexivity.
Qed.
Lemma zero_slice b : Forall (fun x => x = 0) b -> Forall (fun x => x = 0) (slice b 0 8).
Proof. unfold slice. rewrite skipn_O. apply Forall_take. Qed.
Lemma zero_unpack b : Forall (fun x => x = 0) b ->
  (forall c, unpack_bytes 192 disc_config dec_config b <> Ok c) /\
  (forall c, unpack_bytes 144 disc_val dec_val b <> Ok c) /\
  (forall c, unpack_bytes 168 disc_sol dec_sol b <> Ok c).
Proof.
  intros Z. apply zero_slice in Z.
  split; [|split]; intros c H; apply unpack_bytes_ok in H as (_ & H & _); rewrite H in Z;
    apply Forall_cons_1 in Z as [Z _]; discriminate Z.
Qed.
