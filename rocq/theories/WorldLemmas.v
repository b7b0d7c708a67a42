(** Reading back updates, inverting results, summing over accounts. *)
From Verif Require Import Base Types Layout Instr Math External Processor Runtime History Spec.

(** ** Results *)
Lemma bind_ok {A B} (r : result A) (f : A -> result B) b :
  bind r f = Ok b -> exists a, r = Ok a /\ f a = Ok b.
Proof. destruct r; simpl; intros H; try discriminate; eauto. Qed.
Lemma require_ok b e u : require b e = Ok u -> b = true.
Proof. destruct b; simpl; congruence. Qed.
Lemma assert_ok b u : assert b = Ok u -> b = true.
Proof. destruct b; simpl; congruence. Qed.
Lemma csub_ok a b x : csub a b = Ok x -> b <= a /\ x = a - b.
Proof. unfold csub. destruct (N.leb_spec b a); intros [= <-]; auto. Qed.
Lemma add64_ok a b x : add64 a b = Ok x -> x = a + b /\ a + b < U64.
Proof. unfold add64. destruct (N.ltb_spec (a+b) U64); intros [= <-]; auto. Qed.
Lemma to64_ok a x : to64 a = Ok x -> x = a /\ a < U64.
Proof. unfold to64. destruct (N.ltb_spec a U64); intros [= <-]; auto. Qed.
Lemma mul128_ok a b x : mul128 a b = Ok x -> x = a * b /\ a * b < U128.
Proof. unfold mul128. destruct (N.ltb_spec (a*b) U128); intros [= <-]; auto. Qed.

Lemma require_bind_ok {B} b e (f : unit -> result B) x :
  bind (require b e) f = Ok x -> b = true /\ f tt = Ok x.
Proof. destruct b; simpl; [auto|discriminate]. Qed.
Lemma assert_bind_ok {B} b (f : unit -> result B) x :
  bind (assert b) f = Ok x -> b = true /\ f tt = Ok x.
Proof. destruct b; simpl; [auto|discriminate]. Qed.

(** Turn boolean hypotheses into propositions. *)
Ltac b2p H :=
  repeat first
    [ rewrite negb_true_iff in H | rewrite N.eqb_eq in H | rewrite N.eqb_neq in H
    | rewrite N.leb_le in H | rewrite N.ltb_lt in H | rewrite bool_decide_eq_true in H ].

(** Open one monadic step of hypothesis [H]. *)
Ltac step1 H :=
  first
    [ let B := fresh "G" in
      apply require_bind_ok in H; destruct H as [B H]; cbv beta in H; b2p B
    | let B := fresh "G" in
      apply assert_bind_ok in H; destruct H as [B H]; cbv beta in H; b2p B
    | let x := fresh "x" in let E := fresh "E" in
      apply bind_ok in H; destruct H as (x & E & H); cbv beta in H ].
Ltac stepn H x E := apply bind_ok in H; destruct H as (x & E & H); cbv beta in H.
Ltac stepg H B :=
  first [ apply require_bind_ok in H | apply assert_bind_ok in H ];
  destruct H as [B H]; cbv beta in H; b2p B.

(** ** Worlds *)
Lemma get_put w k a k' : get (put w k a) k' = if k =? k' then a else get w k'.
Proof.
  unfold get, put. destruct (N.eqb_spec k k') as [->|N].
  - now rewrite lookup_insert.
  - now rewrite lookup_insert_ne.
Qed.
Lemma lam_setl w k n k' : lam (get (setl w k n) k') = if k =? k' then n else lam (get w k').
Proof. unfold setl. rewrite get_put. now destruct (k =? k'). Qed.
Lemma own_setl w k n k' : own (get (setl w k n) k') = own (get w k').
Proof. unfold setl. rewrite get_put. destruct (N.eqb_spec k k') as [->|]; auto. Qed.
Lemma dat_setl w k n k' : dat (get (setl w k n) k') = dat (get w k').
Proof. unfold setl. rewrite get_put. destruct (N.eqb_spec k k') as [->|]; auto. Qed.
Lemma lam_setd w k d k' : lam (get (setd w k d) k') = lam (get w k').
Proof. unfold setd. rewrite get_put. destruct (N.eqb_spec k k') as [->|]; auto. Qed.
Lemma own_setd w k d k' : own (get (setd w k d) k') = own (get w k').
Proof. unfold setd. rewrite get_put. destruct (N.eqb_spec k k') as [->|]; auto. Qed.
Lemma dat_setd w k d k' : dat (get (setd w k d) k') = if k =? k' then d else dat (get w k').
Proof. unfold setd. rewrite get_put. now destruct (k =? k'). Qed.
Lemma lam_seto w k o k' : lam (get (seto w k o) k') = lam (get w k').
Proof. unfold seto. rewrite get_put. destruct (N.eqb_spec k k') as [->|]; auto. Qed.
Lemma own_seto w k o k' : own (get (seto w k o) k') = if k =? k' then o else own (get w k').
Proof. unfold seto. rewrite get_put. now destruct (k =? k'). Qed.
Lemma dat_seto w k o k' : dat (get (seto w k o) k') = dat (get w k').
Proof. unfold seto. rewrite get_put. destruct (N.eqb_spec k k') as [->|]; auto. Qed.
Lemma lam_put_del w k d k' : lam (get (put_del w k d) k') = lam (get w k').
Proof. apply lam_setd. Qed.
Lemma own_put_del w k d k' : own (get (put_del w k d) k') = own (get w k').
Proof. apply own_setd. Qed.
Lemma dat_put_del w k d k' :
  dat (get (put_del w k d) k') = if k =? k' then upd_del (dat (get w k')) d else dat (get w k').
Proof. unfold put_del. rewrite dat_setd. destruct (N.eqb_spec k k') as [->|]; auto. Qed.

Global Hint Rewrite lam_setl own_setl dat_setl lam_setd own_setd dat_setd lam_seto own_seto dat_seto
  lam_put_del own_put_del dat_put_del : world.
Ltac ws := autorewrite with world.
Ltac wsi H := autorewrite with world in H.

Lemma account_eta a : a = Acct (lam a) (own a) (dat a).
Proof. now destruct a. Qed.
Lemma account_ext a b : lam a = lam b -> own a = own b -> dat a = dat b -> a = b.
Proof. destruct a, b; simpl; congruence. Qed.
Lemma get_empty k : get ∅ k = no_account.
Proof. unfold get. now rewrite lookup_empty. Qed.

(** Split every key comparison of the goal, using [k <> k'] hypotheses. *)
Ltac keys :=
  repeat match goal with
  | |- context [?a =? ?b] => destruct (N.eqb_spec a b); try subst; try congruence
  end.

(** ** Sums over all accounts *)

Fixpoint lsum (f : N -> N) (ks : list N) : N :=
  match ks with [] => 0 | k :: r => f k + lsum f r end.

Lemma wsum_empty f : wsum f ∅ = 0.
Proof. unfold wsum. apply map_fold_empty. Qed.
Lemma wsum_insert f (w : world) k a : w !! k = None -> wsum f (<[k:=a]> w) = f k a + wsum f w.
Proof.
  intros H. unfold wsum.
  rewrite (map_fold_insert_L (fun k a s => f k a + s) 0 k a w); auto.
  intros. lia.
Qed.

Lemma lsum_ext f g ks : (forall k, In k ks -> f k = g k) -> lsum f ks = lsum g ks.
Proof. induction ks; simpl; intros H; [auto|]. rewrite H, IHks; auto. Qed.
Lemma lsum_le f g ks : (forall k, In k ks -> f k <= g k) -> lsum f ks <= lsum g ks.
Proof.
  induction ks; simpl; intros H; [lia|].
  pose proof (H a (or_introl eq_refl)). assert (lsum f ks <= lsum g ks) by (apply IHks; auto). lia.
Qed.
Lemma lsum_zero f ks : (forall k, In k ks -> f k = 0) -> lsum f ks = 0.
Proof. induction ks; simpl; intros H; [auto|]. rewrite H, IHks; auto. Qed.
Lemma lsum_add f g ks : lsum (fun k => f k + g k) ks = lsum f ks + lsum g ks.
Proof. induction ks; simpl; lia. Qed.
Lemma lsum_remove f x ks : NoDup ks -> In x ks ->
  lsum f ks = f x + lsum (fun k => if k =? x then 0 else f k) ks.
Proof.
  induction ks as [|a ks IH]; simpl; intros ND I; [contradiction|].
  apply NoDup_cons in ND as [NI ND].
  destruct I as [->|I].
  - rewrite N.eqb_refl. f_equal. simpl. apply lsum_ext. intros k K.
    destruct (N.eqb_spec k x); subst; auto. exfalso. apply NI. now apply elem_of_list_In.
  - rewrite IH by auto. destruct (N.eqb_spec a x); subst.
    + exfalso. apply NI. now apply elem_of_list_In.
    + lia.
Qed.

Lemma wsum_lsum f w : (forall k, f k no_account = 0) -> forall ks,
  NoDup ks -> (forall k, is_Some (w !! k) -> In k ks) ->
  wsum f w = lsum (fun k => f k (get w k)) ks.
Proof.
  intros Z. induction w as [|k a w L IH] using map_ind; intros ks ND SUB.
  - rewrite wsum_empty. symmetry. apply lsum_zero. intros. rewrite get_empty. auto.
  - rewrite wsum_insert by auto.
    rewrite (lsum_remove _ k) by (auto; apply SUB; rewrite lookup_insert; eauto).
    assert (get (<[k:=a]> w) k = a) as -> by (unfold get; now rewrite lookup_insert).
    f_equal. rewrite (IH ks ND).
    + apply lsum_ext. intros k' _. destruct (N.eqb_spec k' k) as [->|NE].
      * unfold get. rewrite L. simpl. auto.
      * f_equal. unfold get. now rewrite lookup_insert_ne by auto.
    + intros k' S. apply SUB. destruct (N.eqb_spec k' k) as [->|NE].
      * rewrite L in S. destruct S; discriminate.
      * now rewrite lookup_insert_ne by auto.
Qed.

(** A common key list for two worlds and some extra keys. *)
Lemma key_cover (w w' : world) (xs : list N) : exists ks, NoDup ks /\
  (forall k, is_Some (w !! k) -> In k ks) /\ (forall k, is_Some (w' !! k) -> In k ks) /\
  (forall k, In k xs -> In k ks).
Proof.
  exists (elements (list_to_set (C:=gset N) (map fst (map_to_list w) ++ map fst (map_to_list w') ++ xs))).
  split; [apply NoDup_elements|].
  assert (forall k, In k (map fst (map_to_list w) ++ map fst (map_to_list w') ++ xs) ->
    In k (elements (list_to_set (C:=gset N) (map fst (map_to_list w) ++ map fst (map_to_list w') ++ xs)))) as H.
  { intros k K. apply elem_of_list_In, elem_of_elements, elem_of_list_to_set, elem_of_list_In, K. }
  assert (forall (m : world) k, is_Some (m !! k) -> In k (map fst (map_to_list m))) as D.
  { intros m k [a A]. apply in_map_iff. exists (k, a). split; auto.
    apply elem_of_list_In, elem_of_map_to_list, A. }
  repeat split; intros k K; apply H; rewrite !in_app_iff; eauto.
Qed.

Section Sums.
  Context (f g : N -> account -> N).
  Hypothesis Zf : forall k, f k no_account = 0.
  Hypothesis Zg : forall k, g k no_account = 0.

  Lemma wsum_eq w w' : (forall k, g k (get w' k) = f k (get w k)) -> wsum g w' = wsum f w.
  Proof using Zf Zg.
    intros H. destruct (key_cover w w' []) as (ks & ND & S & S' & _).
    rewrite (wsum_lsum f w Zf ks), (wsum_lsum g w' Zg ks) by auto. apply lsum_ext; auto.
  Qed.
  Lemma wsum_le w w' : (forall k, f k (get w k) <= g k (get w' k)) -> wsum f w <= wsum g w'.
  Proof using Zf Zg.
    intros H. destruct (key_cover w w' []) as (ks & ND & S & S' & _).
    rewrite (wsum_lsum f w Zf ks), (wsum_lsum g w' Zg ks) by auto. apply lsum_le; auto.
  Qed.
  (** Two worlds whose summands agree except at one key. *)
  Lemma wsum_upd w w' x : (forall k, k <> x -> g k (get w' k) = f k (get w k)) ->
    wsum g w' + f x (get w x) = wsum f w + g x (get w' x).
  Proof using Zf Zg.
    intros H. destruct (key_cover w w' [x]) as (ks & ND & S & S' & X).
    rewrite (wsum_lsum f w Zf ks), (wsum_lsum g w' Zg ks) by auto.
    rewrite (lsum_remove (fun k => f k (get w k)) x), (lsum_remove (fun k => g k (get w' k)) x)
      by (auto; apply X; simpl; auto).
    rewrite (lsum_ext (fun k => if k =? x then 0 else g k (get w' k))
                      (fun k => if k =? x then 0 else f k (get w k))).
    { lia. } intros k _. destruct (N.eqb_spec k x); auto.
  Qed.
  (** One summand is at most the sum; two different ones together too. *)
  Lemma wsum_ge1 w x : f x (get w x) <= wsum f w.
  Proof using Zf.
    destruct (key_cover w w [x]) as (ks & ND & S & _ & X).
    rewrite (wsum_lsum f w Zf ks) by auto.
    rewrite (lsum_remove _ x) by (auto; apply X; simpl; auto). lia.
  Qed.
  Lemma wsum_ge2 w x y : x <> y -> f x (get w x) + f y (get w y) <= wsum f w.
  Proof using Zf.
    intros NE. destruct (key_cover w w [x; y]) as (ks & ND & S & _ & X).
    rewrite (wsum_lsum f w Zf ks) by auto.
    rewrite (lsum_remove _ x) by (auto; apply X; simpl; auto).
    rewrite (lsum_remove _ y) by (auto; apply X; simpl; auto).
    destruct (N.eqb_spec y x); [congruence|]. lia.
  Qed.
End Sums.

Lemma wsum_add f g w : wsum (fun k a => f k a + g k a) w = wsum f w + wsum g w.
Proof.
  induction w as [|k a w L IH] using map_ind.
  - now rewrite !wsum_empty.
  - rewrite !wsum_insert by auto. lia.
Qed.
Lemma wsum_mul c f w : wsum (fun k a => c * f k a) w = c * wsum f w.
Proof.
  induction w as [|k a w L IH] using map_ind.
  - rewrite !wsum_empty. lia.
  - rewrite !wsum_insert by auto. lia.
Qed.

Lemma total_lamports_wsum w : total_lamports w = wsum (fun _ a => lam a) w.
Proof. reflexivity. Qed.
