(** The record of accesses and the ledger agree: entries only appear, an entry that appears was
    written, what is written is there, and nothing is extended that is not there. *)
From Coq Require Import ZArith List Bool Lia.
From Verif Require Import Base FMap Decimal Curve World Token Stake Pool Stable Rewards Vest Factory Router System Touch Life.
Import ListNotations.
Open Scope Z_scope.

Lemma key_eqb_spec x y : reflect (x = y) (key_eqb x y).
Proof.
  destruct x, y; simpl; try (constructor; congruence);
    try (match goal with |- reflect _ (?a =? ?b) => destruct (Z.eqb_spec a b); constructor; congruence end);
    match goal with |- reflect _ ((?a =? ?b) && (?c =? ?d)) =>
      destruct (Z.eqb_spec a b), (Z.eqb_spec c d); simpl; constructor; congruence end.
Qed.
Lemma key_eqb_refl x : key_eqb x x = true.
Proof. destruct (key_eqb_spec x x); congruence. Qed.

(** every extension is of an entry in [S] or written before *)
Fixpoint cov (S : Addr -> Key -> Prop) (D : list Touch) : Prop :=
  match D with
  | [] => True
  | x :: tl =>
      match x_act x with
      | Bump _ => S (x_at x) (x_key x) /\ cov S tl
      | Put => cov (fun c k => S c k \/ (c = x_at x /\ k = x_key x)) tl
      | _ => cov S tl
      end
  end.

Lemma cov_mono D : forall S S' : Addr -> Key -> Prop, (forall c k, S c k -> S' c k) -> cov S D -> cov S' D.
Proof.
  induction D as [|[c k a] tl IH]; simpl; intros S S' M; auto.
  destruct a; eauto.
  - apply IH. intros c' k' [X|X]; auto.
  - intros [X Y]. split; eauto.
Qed.
Lemma cov_app D1 : forall (S S1 : Addr -> Key -> Prop) D2,
  (forall c k, S1 c k -> S c k \/ In (mkT c k Put) D1) -> cov S D1 -> cov S1 D2 -> cov S (D1 ++ D2).
Proof.
  induction D1 as [|[c k a] tl IH]; simpl; intros S S1 D2 M C1 C2.
  - apply cov_mono with S1; auto. intros c k X. destruct (M c k X) as [|[]]; auto.
  - destruct a; simpl in *;
      try (apply IH with S1; auto; intros c' k' X; destruct (M c' k' X) as [?|[?|?]]; [auto|congruence|auto]).
    + apply IH with S1; auto. intros c' k' X. destruct (M c' k' X) as [?|[E|?]]; auto. inversion E; subst; auto.
    + destruct C1 as [X C1]. split; auto.
      apply IH with S1; auto. intros c' k' Y. destruct (M c' k' Y) as [?|[?|?]]; [auto|congruence|auto].
Qed.

Definition here w c k : Prop := present w c k = true.
Record Grow (w : World) (D : list Touch) (w' : World) : Prop := {
  g_keep : forall c k, here w c k -> here w' c k;
  g_new : forall c k, here w' c k -> here w c k \/ In (mkT c k Put) D;
  g_put : forall c k, In (mkT c k Put) D -> here w' c k;
  g_cov : cov (here w) D }.

Lemma grow_nil w : Grow w [] w.
Proof. split; simpl; auto; contradiction. Qed.
Lemma grow_app w D1 w1 D2 w2 : Grow w D1 w1 -> Grow w1 D2 w2 -> Grow w (D1 ++ D2) w2.
Proof.
  intros A B. split.
  - intros c k X. apply (g_keep _ _ _ B), (g_keep _ _ _ A), X.
  - intros c k X. destruct (g_new _ _ _ B _ _ X) as [Y|Y]; [|right; apply in_or_app; auto].
    destruct (g_new _ _ _ A _ _ Y) as [Z|Z]; auto. right. apply in_or_app; auto.
  - intros c k X. apply in_app_or in X. destruct X as [X|X].
    + apply (g_keep _ _ _ B), (g_put _ _ _ A), X.
    + apply (g_put _ _ _ B), X.
  - apply cov_app with (here w1); [apply (g_new _ _ _ A) | apply (g_cov _ _ _ A) | apply (g_cov _ _ _ B)].
Qed.

(** notes without a [Put] *)
Definition is_put (a : Act) : bool := match a with Put => true | _ => false end.
Definition is_bump (a : Act) : bool := match a with Bump _ => true | _ => false end.
Lemma grow_note w D : forallb (fun x => negb (is_put (x_act x))) D = true ->
  (forall c k t, In (mkT c k (Bump t)) D -> here w c k) -> Grow w D w.
Proof.
  intros NP B. rewrite forallb_forall in NP. split; auto.
  - intros c k X. apply NP in X. discriminate.
  - revert B. induction D as [|[c k a] tl IH]; simpl; auto. intros B.
    assert (cov (here w) tl) by (apply IH; [intros; apply NP; simpl; auto | eauto]).
    destruct a; auto.
    + specialize (NP _ (or_introl eq_refl)). discriminate.
    + split; auto. apply (B c k t). auto.
Qed.

Lemma in_wrote c ks c' k' t : In (mkT c' k' (Bump t)) (wrote_notes c ks) -> c' = c /\ In k' ks.
Proof.
  unfold wrote_notes. rewrite in_flat_map. intros (k & I & [E|[E|[]]]); inversion E; subst; auto.
Qed.
Lemma in_wrote_put c ks c' k' : In (mkT c' k' Put) (wrote_notes c ks) <-> c' = c /\ In k' ks.
Proof.
  unfold wrote_notes. rewrite in_flat_map. split.
  - intros (k & I & [E|[E|[]]]); inversion E; subst; auto.
  - intros [-> I]. exists k'. simpl. auto.
Qed.
Lemma cov_wrote c ks : forall S, cov S (wrote_notes c ks).
Proof. induction ks as [|k tl IH]; simpl; intros S; auto. Qed.
Lemma cov_nobump D : forallb (fun x => negb (is_bump (x_act x))) D = true -> forall S, cov S D.
Proof.
  induction D as [|[c k a] tl IH]; simpl; auto. intros H S. apply andb_true_iff in H as [H1 H2].
  destruct a; auto; discriminate.
Qed.

(** the contract at [a] writes [ks] (and extends them) and [ps] *)
Lemma grow_put w w' a ks ps :
  (forall c k, c <> a -> present w' c k = present w c k) ->
  (forall k, present w' a k = present w a k || existsb (key_eqb k) (ks ++ ps)) ->
  Grow w (wrote_notes a ks ++ map (fun k => mkT a k Put) ps) w'.
Proof.
  intros A B.
  assert (I : forall k, existsb (key_eqb k) (ks ++ ps) = true <-> In k (ks ++ ps)).
  { intros k. rewrite existsb_exists. split.
    - intros (y & I & E). destruct (key_eqb_spec k y); congruence.
    - intros X. exists k. split; auto. apply key_eqb_refl. }
  assert (P : forall c k, In (mkT c k Put) (wrote_notes a ks ++ map (fun k => mkT a k Put) ps) <-> c = a /\ In k (ks ++ ps)).
  { intros c k. rewrite in_app_iff, in_wrote_put, in_app_iff, in_map_iff. split.
    - intros [[E X]|(y & E & X)]; [auto|]. inversion E; subst; auto.
    - intros [-> [X|X]]; auto. right. exists k. auto. }
  split; unfold here.
  - intros c k X. destruct (Z.eq_dec c a) as [->|N]; [|now rewrite A]. rewrite B, X. reflexivity.
  - intros c k X. destruct (Z.eq_dec c a) as [->|N]; [|rewrite A in X; auto].
    rewrite B in X. apply orb_true_iff in X as [X|X]; auto. right. apply P. split; auto. now apply I.
  - intros c k X. apply P in X as [-> X]. rewrite B. apply I in X. rewrite X. apply orb_true_r.
  - apply cov_app with (here w); auto.
    + apply cov_wrote.
    + apply cov_nobump. apply forallb_forall. intros x X. apply in_map_iff in X as (k & <- & _). reflexivity.
Qed.
Lemma grow_put0 w w' a ks :
  (forall c k, c <> a -> present w' c k = present w c k) ->
  (forall k, present w' a k = present w a k || existsb (key_eqb k) ks) -> Grow w (wrote_notes a ks) w'.
Proof. intros A B. rewrite <- (app_nil_r (wrote_notes a ks)). apply (grow_put w w' a ks []); auto. intros k. now rewrite app_nil_r. Qed.

(** tokens have code *)
Definition Wf (w : World) : Prop := forall t, fmem t (w_tok w) = true -> fmem t (w_code w) = true.

Definition tri {A} (P : World -> Prop) (m : TST A) (Q : A -> World -> Prop) : Prop := forall w l, Wf w -> P w ->
  match m (w, l) with
  | Ok (a, (w', l')) => Wf w' /\ Q a w' /\ exists D, l' = l ++ D /\ Grow w D w'
  | Err _ => True
  end.

Lemma tri_bind {A B} (P : World -> Prop) (m : TST A) Q (k : A -> TST B) R :
  tri P m Q -> (forall a, tri (Q a) (k a) R) -> tri P (mbind m k) R.
Proof.
  intros E F w l W HP. unfold mbind. specialize (E w l W HP). destruct (m (w, l)) as [[a [w1 l1]]|]; auto.
  destruct E as (W1 & HQ & D1 & -> & G1). specialize (F a w1 (l ++ D1) W1 HQ).
  destruct (k a (w1, l ++ D1)) as [[b [w2 l2]]|]; auto.
  destruct F as (W2 & HR & D2 & -> & G2). split; [auto|]. split; [auto|].
  exists (D1 ++ D2). rewrite app_assoc. split; [auto|]. now apply grow_app with w1.
Qed.
Lemma tri_post {A} (P : World -> Prop) (m : TST A) (Q R : A -> World -> Prop) : tri P m Q -> (forall a w, Q a w -> R a w) -> tri P m R.
Proof.
  intros E F w l W HP. specialize (E w l W HP). destruct (m (w, l)) as [[a [w1 l1]]|]; auto.
  destruct E as (W1 & HQ & X). auto.
Qed.
Lemma tri_pre {A} (P P' : World -> Prop) (m : TST A) R : tri P' m R -> (forall w, P w -> P' w) -> tri P m R.
Proof. intros E F w l W HP. apply E; auto. Qed.

Lemma tri_read {A} (P : World -> Prop) (m : ST World A) (R : A -> World -> Prop) :
  (forall w a w', m w = Ok (a, w') -> w' = w /\ R a w) -> tri P (tf m) (fun a w => P w /\ R a w).
Proof.
  intros E w l W HP. unfold tf. cbn [fst snd]. destruct (m w) as [[a w']|] eqn:M; auto.
  apply E in M as [-> HR]. repeat split; auto. exists []. rewrite app_nil_r. split; auto. apply grow_nil.
Qed.
Lemma tri_reads {A} (P : World -> Prop) (m : ST World A) :
  (forall w a w', m w = Ok (a, w') -> w' = w) -> tri P (tf m) (fun _ w => P w).
Proof.
  intros E. apply tri_post with (fun a w => P w /\ True); [|tauto].
  apply tri_read. intros w a w' M. split; [eapply E; eauto|exact I].
Qed.
Lemma tri_ret {A} (P : World -> Prop) (a : A) : tri P (mret a) (fun _ => P).
Proof. intros w l W HP. repeat split; auto. exists []. rewrite app_nil_r. split; auto. apply grow_nil. Qed.
Lemma tri_mret {A} (Q : A -> World -> Prop) (a : A) : tri (Q a) (mret a) Q.
Proof. intros w l W HP. repeat split; auto. exists []. rewrite app_nil_r. split; auto. apply grow_nil. Qed.
Lemma tri_fail {A} (P : World -> Prop) x Q : tri P (@mfail _ A x) Q.
Proof. intros w l W HP. exact I. Qed.
Lemma tri_note (P : World -> Prop) D : forallb (fun x => negb (is_put (x_act x))) D = true ->
  (forall w c k t, P w -> In (mkT c k (Bump t)) D -> here w c k) -> tri P (tnote D) (fun _ => P).
Proof. intros NP B w l W HP. unfold tnote. cbn. repeat split; auto. exists D. split; auto. apply grow_note; eauto. Qed.

(** rules for the usual sequences *)
Lemma tri_lift {A B} (P : World -> Prop) (r : res A) (k : A -> TST B) R : (forall a, r = Ok a -> tri P (k a) R) -> tri P (mbind (mlift r) k) R.
Proof.
  intros H w l W HP. unfold mbind, mlift. destruct r as [a|]; auto. apply (H a eq_refl w l W HP).
Qed.
Lemma tri_lift1 {A} (P : World -> Prop) (r : res A) : tri P (mlift r) (fun _ => P).
Proof. intros w l W HP. unfold mlift. destruct r; auto. apply (tri_ret P a w l W HP). Qed.
Lemma tri_guard {B} (P : World -> Prop) b x (k : TST B) R : (b = true -> tri P k R) -> tri P (mbind (mguard b x) (fun _ => k)) R.
Proof. intros H w l W HP. unfold mbind, mguard. destruct b; auto. apply (H eq_refl w l W HP). Qed.
Lemma tri_fresh {X B} (P : World -> Prop) (g : World -> @fmap X) self x (k : TST B) R :
  tri (fun w => P w /\ fget self (g w) = None) k R ->
  tri P (w <- tf mget ;; mguard (negb (fmem self (g w))) x ;; k) R.
Proof.
  intros H w l W HP. unfold mbind, tf, mget, mguard, fmem. cbn [fst snd].
  destruct (fget self (g w)) eqn:E; simpl; auto. apply H; auto.
Qed.
Lemma tri_skip {A B} (P : World -> Prop) (a : A) (k : A -> TST B) R : tri P (k a) R -> tri P (mbind (mret a) k) R.
Proof. intros H w l W HP. exact (H w l W HP). Qed.
Lemma tri_true {A} (P : World -> Prop) (m : TST A) Q : tri (fun _ => True) m Q -> tri P m Q.
Proof. intros H. apply tri_pre with (fun _ => True); auto. Qed.

(** ** the units of Touch.v *)
Definition coded (w : World) (c : Addr) : Prop := fmem c (w_code w) = true.
Lemma coded_here w c : coded w c -> here w c YInst.
Proof. unfold coded, here, present. intros ->. reflexivity. Qed.

Lemma tri_enter (P : World -> Prop) self K : tri P (tf (enter self K)) (fun _ w => P w /\ coded w self).
Proof.
  apply tri_read. intros w a w' M. unfold enter, mbind, mget, mguard, is_code in M.
  unfold coded, fmem. destruct (fget self (w_code w)) as [k|]; [|discriminate].
  destruct (kind_eqb K k); inversion M; auto.
Qed.
Lemma tri_inst (P : World -> Prop) self (t : Ttl) : (forall w, P w -> coded w self) ->
  tri P (tnote [mkT self YInst Look; mkT self YInst (Bump t)]) (fun _ => P).
Proof.
  intros H. apply tri_note; auto. intros w c k t' HP [E|[E|[]]]; inversion E; subst. apply coded_here. auto.
Qed.
Lemma tri_quiet (P : World -> Prop) D : forallb (fun x => negb (is_put (x_act x)) && negb (is_bump (x_act x))) D = true -> tri P (tnote D) (fun _ => P).
Proof.
  intros H. rewrite forallb_forall in H. apply tri_note.
  - apply forallb_forall. intros x X. apply H in X. now apply andb_true_iff in X.
  - intros w c k t _ X. apply H in X. apply andb_true_iff in X as [_ X]. discriminate.
Qed.
Lemma tri_looks (P : World -> Prop) a ks : tri P (looks a ks) (fun _ => P).
Proof. apply tri_quiet. apply forallb_forall. intros x X. apply in_map_iff in X as (k & <- & _). reflexivity. Qed.
Lemma tri_peek (P : World -> Prop) a ks : tri P (peek a ks) (fun _ => P).
Proof. apply tri_quiet. apply forallb_forall. intros x X. apply in_map_iff in X as (k & <- & _). reflexivity. Qed.
Lemma tri_has (P : World -> Prop) a ks : tri P (tnote (map (fun k => mkT a k Has) ks)) (fun _ => P).
Proof. apply tri_quiet. apply forallb_forall. intros x X. apply in_map_iff in X as (k & <- & _). reflexivity. Qed.
Lemma in_got c ks c' k' a : In (mkT c' k' a) (got_notes c ks) -> c' = c /\ In k' ks /\ a <> Put.
Proof.
  unfold got_notes. rewrite in_flat_map. intros (k & I & [E|[E|[]]]); inversion E; subst; repeat split; auto; discriminate.
Qed.
Lemma tri_got (P : World -> Prop) a ks : (forall w k, P w -> In k ks -> here w a k) -> tri P (got a ks) (fun _ => P).
Proof.
  intros H. apply tri_note.
  - apply forallb_forall. intros [c k y] X. apply in_got in X as (_ & _ & N). destruct y; auto; congruence.
  - intros w c k t HP X. apply in_got in X as (-> & X & _). eauto.
Qed.

(** fixed entries of the kinds *)
Definition within (ks ks' : list Key) : bool := forallb (fun k => existsb (key_eqb k) ks') ks.
Lemma within_in ks ks' k : within ks ks' = true -> In k ks -> In k ks'.
Proof.
  unfold within. rewrite forallb_forall. intros H I. apply H in I. apply existsb_exists in I as (y & I & E).
  destruct (key_eqb_spec k y); congruence.
Qed.
Definition pool_keys := [YInit; YConfig; YSlip; YAdmin; YTotal; YResA; YResB].
Definition stake_keys := [YConfig; YAdmin; YStaked; YTotHist].
Definition rewards_keys := [YInit; YConfig; YAdmin; YDistr; YCurve].
Definition vest_keys := [YAdmin].
Definition fact_keys := [YInit; YConfig; YStab; YLps].
Definition trader_keys := [YAdmin; YName; YTPair; YTOut; YInit].

Ltac allkeys G H := simpl in H; repeat destruct H as [<-|H]; [..|destruct H];
  unfold here, present, fmem; rewrite G, ?orb_true_r; reflexivity.
Lemma pool_here w a x k : fget a (w_pool w) = Some x -> In k pool_keys -> here w a k.
Proof. intros G H. allkeys G H. Qed.
Lemma stake_here w a x k : fget a (w_stake w) = Some x -> In k stake_keys -> here w a k.
Proof. intros G H. allkeys G H. Qed.
Lemma rewards_here w a x k : fget a (w_rewards w) = Some x -> In k rewards_keys -> here w a k.
Proof. intros G H. allkeys G H. Qed.
Lemma vest_here w a x k : fget a (w_vest w) = Some x -> In k vest_keys -> here w a k.
Proof. intros G H. allkeys G H. Qed.
Lemma fact_here w a x k : fget a (w_fact w) = Some x -> In k fact_keys -> here w a k.
Proof. intros G H. allkeys G H. Qed.
Lemma trader_here w a x k : fget a (w_trader w) = Some x -> In k trader_keys -> here w a k.
Proof. intros G H. allkeys G H. Qed.


Lemma tri_get {X} (g : World -> @fmap X) (get : Addr -> ST World X) a ks kk P
  (HG : forall w x w', get a w = Ok (x, w') -> w' = w /\ fget a (g w) = Some x)
  (HH : forall w x k, fget a (g w) = Some x -> In k kk -> here w a k) :
  within ks kk = true ->
  tri P (x <- tf (get a) ;; got a ks ;; mret x) (fun x w => P w /\ fget a (g w) = Some x).
Proof.
  intros S. eapply tri_bind; [apply tri_read with (R := fun x w => fget a (g w) = Some x); eauto|].
  intros x. cbv beta. eapply tri_bind; [apply tri_got|].
  - intros w k [_ G] I. eapply HH; eauto. eapply within_in; eauto.
  - intros []. apply (tri_mret (fun x w => P w /\ fget a (g w) = Some x)).
Qed.
Ltac got_ok := intros w x w' M; match type of M with ?g _ _ = _ => unfold g in M end;
  match type of M with context [match ?t with _ => _ end] => destruct t eqn:?; inversion M; subst; auto end.
Lemma tri_get_pool (P : World -> Prop) a ks : within ks pool_keys = true ->
  tri P (z_get_pool a ks) (fun x w => P w /\ fget a (w_pool w) = Some x).
Proof. unfold z_get_pool. apply (tri_get w_pool get_pool a ks pool_keys P); [got_ok | intros; eapply pool_here; eauto]. Qed.
Lemma tri_get_stake (P : World -> Prop) a ks : within ks stake_keys = true ->
  tri P (z_get_stake a ks) (fun x w => P w /\ fget a (w_stake w) = Some x).
Proof. unfold z_get_stake. apply (tri_get w_stake get_stake a ks stake_keys P); [got_ok | intros; eapply stake_here; eauto]. Qed.
Lemma tri_get_vest (P : World -> Prop) a ks : within ks vest_keys = true ->
  tri P (z_get_vest a ks) (fun x w => P w /\ fget a (w_vest w) = Some x).
Proof. unfold z_get_vest. apply (tri_get w_vest get_vest a ks vest_keys P); [got_ok | intros; eapply vest_here; eauto]. Qed.
Lemma tri_get_fact (P : World -> Prop) a ks : within ks fact_keys = true ->
  tri P (z_get_fact a ks) (fun x w => P w /\ fget a (w_fact w) = Some x).
Proof. unfold z_get_fact. apply (tri_get w_fact get_fact a ks fact_keys P); [got_ok | intros; eapply fact_here; eauto]. Qed.
Lemma tri_get_trader (P : World -> Prop) a ks : within ks trader_keys = true ->
  tri P (z_get_trader a ks) (fun x w => P w /\ fget a (w_trader w) = Some x).
Proof. unfold z_get_trader. apply (tri_get w_trader get_trader a ks trader_keys P); [got_ok | intros; eapply trader_here; eauto]. Qed.
Lemma tri_get_rewards (P : World -> Prop) a ks ls : within ks rewards_keys = true ->
  tri P (z_get_rewards a ks ls) (fun x w => P w /\ fget a (w_rewards w) = Some x).
Proof.
  intros S. unfold z_get_rewards.
  eapply tri_bind; [apply tri_read with (R := fun x w => fget a (w_rewards w) = Some x); got_ok|].
  intros x. cbv beta. eapply tri_bind; [apply tri_got|].
  - intros w k [_ G] I. eapply rewards_here; eauto. eapply within_in; eauto.
  - intros []. eapply tri_bind; [apply tri_looks|]. intros []. apply (tri_mret (fun x w => P w /\ fget a (w_rewards w) = Some x)).
Qed.
Lemma tri_get0 {X} (g : World -> @fmap X) (get : Addr -> ST World X) a P
  (HG : forall w x w', get a w = Ok (x, w') -> w' = w /\ fget a (g w) = Some x) :
  tri P (tf (get a)) (fun x w => P w /\ fget a (g w) = Some x).
Proof. apply tri_read with (R := fun x w => fget a (g w) = Some x); eauto. Qed.
Lemma tri_g_pool (P : World -> Prop) a : tri P (tf (get_pool a)) (fun x w => P w /\ fget a (w_pool w) = Some x).
Proof. apply (tri_get0 w_pool get_pool). got_ok. Qed.
Lemma tri_g_stable (P : World -> Prop) a : tri P (tf (get_stable a)) (fun x w => P w /\ fget a (w_stable w) = Some x).
Proof. apply (tri_get0 w_stable get_stable). got_ok. Qed.
Lemma tri_g_rewards (P : World -> Prop) a : tri P (tf (get_rewards a)) (fun x w => P w /\ fget a (w_rewards w) = Some x).
Proof. apply (tri_get0 w_rewards get_rewards). got_ok. Qed.
Lemma tri_g_vest (P : World -> Prop) a : tri P (tf (get_vest a)) (fun x w => P w /\ fget a (w_vest w) = Some x).
Proof. apply (tri_get0 w_vest get_vest). got_ok. Qed.
Lemma tri_g_fact (P : World -> Prop) a : tri P (tf (get_fact a)) (fun x w => P w /\ fget a (w_fact w) = Some x).
Proof. apply (tri_get0 w_fact get_fact). got_ok. Qed.
Lemma tri_g_hop (P : World -> Prop) a : tri P (tf (get_hop a)) (fun x w => P w /\ fget a (w_hop w) = Some x).
Proof. apply (tri_get0 w_hop get_hop). got_ok. Qed.
Lemma tri_g_tok (P : World -> Prop) a : tri P (tf (get_tok a)) (fun x w => P w /\ fget a (w_tok w) = Some x).
Proof. apply (tri_get0 w_tok get_tok). got_ok. Qed.
Lemma tri_auth (P : World -> Prop) e c a : tri P (tf (require_auth e c a)) (fun _ => P).
Proof. apply tri_reads. intros w x w' M. unfold require_auth, mguard in M. destruct (authed e c a); inversion M; auto. Qed.
Lemma tri_now (P : World -> Prop) : tri P (tf now) (fun _ => P).
Proof. apply tri_reads. intros w x w' M. inversion M; auto. Qed.
Lemma tri_mget (P : World -> Prop) : tri P (tf mget) (fun _ => P).
Proof. apply tri_reads. intros w x w' M. inversion M; auto. Qed.
Lemma tri_deadline (P : World -> Prop) n dl : tri P (tf (check_deadline n dl)) (fun _ => P).
Proof.
  apply tri_reads. intros w x w' M. unfold check_deadline, mbind, now, mgets, mguard in M.
  destruct dl as [d|]; [destruct (negb (d <? w_now w))|]; inversion M; auto.
Qed.
Lemma tri_put_wasm (P : World -> Prop) a h : (forall w m, P w -> P (set_wasm w m)) -> tri P (tf (put_wasm a h)) (fun _ => P).
Proof.
  intros S w l W HP. unfold tf, put_wasm, mmod. cbn [fst snd]. repeat split; auto.
  exists []. rewrite app_nil_r. split; [reflexivity|]. split; try (intros c k X; first [exact X | left; exact X | destruct X]). exact I.
Qed.

(** ** writing entries *)
Lemma fmem_set {X} (c a : Z) (x : X) m : fmem c (fset a x m) = (c =? a) || fmem c m.
Proof.
  unfold fmem. destruct (Z.eqb_spec c a) as [->|N]; [rewrite fget_set_same | rewrite fget_set_other by auto]; reflexivity.
Qed.
Lemma tri_put (P R : World -> Prop) (f : World -> World) a ks ps :
  (forall w, Wf w -> Wf (f w)) -> (forall w, P w -> R (f w)) ->
  (forall w, P w -> forall c k, c <> a -> present (f w) c k = present w c k) ->
  (forall w, P w -> forall k, present (f w) a k = present w a k || existsb (key_eqb k) (ks ++ ps)) ->
  tri P (tf (mmod f) ;; wrote a ks ;; puts a ps) (fun _ => R).
Proof.
  intros F HR A B w l W HP. unfold mbind, tf, mmod, wrote, puts, tnote. cbn [fst snd].
  split; [auto|]. split; [auto|]. exists (wrote_notes a ks ++ map (fun k => mkT a k Put) ps).
  rewrite app_assoc. split; auto. apply grow_put; eauto.
Qed.
Lemma tri_put0 (P R : World -> Prop) (f : World -> World) a ks :
  (forall w, Wf w -> Wf (f w)) -> (forall w, P w -> R (f w)) ->
  (forall w, P w -> forall c k, c <> a -> present (f w) c k = present w c k) ->
  (forall w, P w -> forall k, present (f w) a k = present w a k || existsb (key_eqb k) ks) ->
  tri P (tf (mmod f) ;; wrote a ks) (fun _ => R).
Proof.
  intros F HR A B w l W HP. unfold mbind, tf, mmod, wrote, tnote. cbn [fst snd].
  split; [auto|]. split; [auto|]. exists (wrote_notes a ks). split; auto. apply grow_put0; eauto.
Qed.
Lemma in_eqb k ks : existsb (key_eqb k) ks = true <-> In k ks.
Proof.
  rewrite existsb_exists. split.
  - intros (y & I & E). destruct (key_eqb_spec k y); congruence.
  - intros X. exists k. split; auto. apply key_eqb_refl.
Qed.
Lemma same_or (w w' : World) a k ks : present w' a k = present w a k -> (In k ks -> here w a k) ->
  present w' a k = present w a k || existsb (key_eqb k) ks.
Proof.
  intros E H. destruct (existsb (key_eqb k) ks) eqn:X; [|now rewrite E, orb_false_r].
  apply in_eqb in X. rewrite E, (H X). reflexivity.
Qed.

Ltac elsewhere := intros ? ? ? k N; destruct k; unfold present; cbn [w_code w_tok w_pool w_stable w_stake w_rewards w_vest w_fact w_hop w_trader
    set_pool set_stable set_stake set_rewards set_vest set_fact set_hop set_trader];
  rewrite ?fmem_set, ?(proj2 (Z.eqb_neq _ _) N), ?fget_set_other by exact N; reflexivity.
Ltac here_ G := let k := fresh "k" in intros k; destruct k; unfold present; cbn [w_code w_tok w_pool w_stable w_stake w_rewards w_vest w_fact w_hop w_trader
    set_pool set_stable set_stake set_rewards set_vest set_fact set_hop set_trader];
  rewrite ?fmem_set, ?Z.eqb_refl, ?fget_set_same; unfold fmem; rewrite ?G; cbn -[Z.eqb];
  rewrite ?orb_true_r, ?orb_false_r; try reflexivity.
Ltac keeps := intros ? ?; match goal with H : Wf _ |- _ => exact H end.

(** *** a contract that is already set up; only fixed entries are written *)
Lemma tri_put_pool (P R : World -> Prop) a x ks :
  (forall w, P w -> exists y, fget a (w_pool w) = Some y) -> within ks pool_keys = true ->
  (forall w, P w -> R (set_pool w (fset a x (w_pool w)))) -> tri P (z_put_pool a x ks) (fun _ => R).
Proof.
  intros O S HR. apply tri_put0; [keeps | auto | elsewhere |].
  intros w HP k. destruct (O w HP) as [y G]. apply same_or; [|intros I; eapply pool_here; eauto; eapply within_in; eauto].
  revert k. here_ G.
Qed.
Lemma tri_put_stable (P R : World -> Prop) a x :
  (forall w, P w -> exists y, fget a (w_stable w) = Some y) ->
  (forall w, P w -> R (set_stable w (fset a x (w_stable w)))) -> tri P (z_put_stable a x []) (fun _ => R).
Proof.
  intros O HR. apply tri_put0; [keeps | auto | elsewhere |].
  intros w HP k. destruct (O w HP) as [y G]. apply same_or; [|intros []]. revert k. here_ G.
Qed.
Lemma tri_put_trader (P R : World -> Prop) a x :
  (forall w, P w -> fget a (w_trader w) = None) ->
  (forall w, P w -> R (set_trader w (fset a x (w_trader w)))) -> tri P (z_put_trader a x [YAdmin; YName; YTPair; YTOut; YInit]) (fun _ => R).
Proof.
  intros O HR. apply tri_put0; [keeps | auto | elsewhere |].
  intros w HP. specialize (O w HP). here_ O.
Qed.
Lemma tri_new_pool (P R : World -> Prop) a x :
  (forall w, P w -> fget a (w_pool w) = None) ->
  (forall w, P w -> R (set_pool w (fset a x (w_pool w)))) ->
  tri P (z_put_pool a x [YInit; YConfig; YSlip; YAdmin; YTotal; YResA; YResB]) (fun _ => R).
Proof.
  intros O HR. apply tri_put0; [keeps | auto | elsewhere |].
  intros w HP. specialize (O w HP). here_ O.
Qed.
Lemma tri_new_stable (P R : World -> Prop) a x :
  (forall w, P w -> fget a (w_stable w) = None) ->
  (forall w, P w -> R (set_stable w (fset a x (w_stable w)))) ->
  tri P (z_put_stable a x [YInit]) (fun _ => R).
Proof.
  intros O HR. apply tri_put0; [keeps | auto | elsewhere |].
  intros w HP. specialize (O w HP). here_ O.
Qed.
Lemma tri_new_hop (P R : World -> Prop) a x :
  (forall w, P w -> fget a (w_hop w) = None) ->
  (forall w, P w -> R (set_hop w (fset a x (w_hop w)))) ->
  tri P (z_put_hop a x [YInit]) (fun _ => R).
Proof.
  intros O HR. apply tri_put0; [keeps | auto | elsewhere |].
  intros w HP. specialize (O w HP). here_ O.
Qed.
Lemma tri_new_stake (P R : World -> Prop) a lp mb mr ma ow mc ad :
  let x := mkStake lp mb mr ma ow mc ad 0 fempty fempty [] fempty in
  (forall w, P w -> fget a (w_stake w) = None) ->
  (forall w, P w -> R (set_stake w (fset a x (w_stake w)))) ->
  tri P (z_put_stake a x [YConfig; YAdmin; YStaked; YTotHist]) (fun _ => R).
Proof.
  intros x O HR. apply tri_put0; [keeps | auto | elsewhere |].
  intros w HP. specialize (O w HP). here_ O.
Qed.
Lemma tri_new_rewards (P R : World -> Prop) a st tk mc mr mb ad c :
  let x := mkRewards st tk mc mr mb ad 1 0 0 0 c fempty in
  (forall w, P w -> fget a (w_rewards w) = None) ->
  (forall w, P w -> R (set_rewards w (fset a x (w_rewards w)))) ->
  tri P (z_put_rewards a x [YInit; YConfig; YAdmin] [YDistr; YCurve]) (fun _ => R).
Proof.
  intros x O HR. apply tri_put; [keeps | auto | elsewhere |].
  intros w HP. specialize (O w HP). here_ O.
Qed.
Lemma tri_new_vest (P R : World -> Prop) a ad tk mc mi :
  let x := mkVest ad tk mc mi fempty in
  (forall w, P w -> fget a (w_vest w) = None) ->
  (forall w, P w -> R (set_vest w (fset a x (w_vest w)))) ->
  tri P (z_put_vest a x [YAdmin]) (fun _ => R).
Proof.
  intros x O HR. apply tri_put0; [keeps | auto | elsewhere |].
  intros w HP. specialize (O w HP). here_ O.
Qed.
Lemma tri_new_fact (P R : World -> Prop) a x :
  (forall w, P w -> fget a (w_fact w) = None) -> f_pairs x = fempty ->
  (forall w, P w -> R (set_fact w (fset a x (w_fact w)))) ->
  tri P (z_put_fact a x [YInit; YConfig; YStab; YLps]) (fun _ => R).
Proof.
  intros O E HR. apply tri_put0; [keeps | auto | elsewhere |].
  intros w HP. specialize (O w HP). here_ O. unfold pair_get. now rewrite E.
Qed.

(** *** a contract that is already set up; entries may be added *)
Definition stake_has (s : Stake) (k : Key) : bool :=
  match k with
  | YConfig | YAdmin | YStaked | YTotHist => true
  | YDists => match s_dists s with [] => false | _ => true end
  | YHist a => fmem a (s_rh s) | YUser u => fmem u (s_users s) | _ => false
  end.
Definition rewards_has (r : Rewards) (k : Key) : bool :=
  match k with
  | YInit | YConfig | YAdmin | YDistr | YCurve => true
  | YAdj u => fmem u (r_adj r) | _ => false
  end.
Definition vest_has (v : Vest) (k : Key) : bool :=
  match k with YAdmin => true | YVest u i => fmem i (v_entries v u) | _ => false end.
Definition fact_has (f : Fact) (k : Key) : bool :=
  match k with
  | YInit | YConfig | YStab | YLps => true
  | YPair a b => match pair_get f a b with Some _ => true | None => false end | _ => false
  end.
Lemma tri_put_stake (P R : World -> Prop) a s x ks :
  (forall w, P w -> fget a (w_stake w) = Some s) ->
  (forall k, stake_has x k = stake_has s k || existsb (key_eqb k) ks) ->
  (forall w, P w -> R (set_stake w (fset a x (w_stake w)))) -> tri P (z_put_stake a x ks) (fun _ => R).
Proof.
  intros O HS HR. apply tri_put0; [keeps | auto | elsewhere |].
  intros w HP. specialize (O w HP). intros k. specialize (HS k).
  destruct k; unfold present; cbn [w_code w_tok w_pool w_stable w_stake w_rewards w_vest w_fact w_hop w_trader set_stake];
    rewrite ?fmem_set, ?Z.eqb_refl, ?fget_set_same, ?O; cbn [stake_has orb] in HS;
    try (rewrite <- HS, ?orb_false_r; reflexivity); try exact HS;
    unfold fmem; rewrite ?O; simpl; rewrite ?orb_true_r; reflexivity.
Qed.
Lemma tri_put_rewards (P R : World -> Prop) a s x ks ps :
  (forall w, P w -> fget a (w_rewards w) = Some s) ->
  (forall k, rewards_has x k = rewards_has s k || existsb (key_eqb k) (ks ++ ps)) ->
  (forall w, P w -> R (set_rewards w (fset a x (w_rewards w)))) -> tri P (z_put_rewards a x ks ps) (fun _ => R).
Proof.
  intros O HS HR. apply tri_put; [keeps | auto | elsewhere |].
  intros w HP. specialize (O w HP). intros k. specialize (HS k).
  destruct k; unfold present; cbn [w_code w_tok w_pool w_stable w_stake w_rewards w_vest w_fact w_hop w_trader set_rewards];
    rewrite ?fmem_set, ?Z.eqb_refl, ?fget_set_same, ?O; cbn [rewards_has orb] in HS;
    try (rewrite <- HS, ?orb_false_r; reflexivity); try exact HS;
    unfold fmem; rewrite ?O; simpl; rewrite ?orb_true_r; reflexivity.
Qed.
Lemma tri_put_vest (P R : World -> Prop) a s x ks :
  (forall w, P w -> fget a (w_vest w) = Some s) ->
  (forall k, vest_has x k = vest_has s k || existsb (key_eqb k) ks) ->
  (forall w, P w -> R (set_vest w (fset a x (w_vest w)))) -> tri P (z_put_vest a x ks) (fun _ => R).
Proof.
  intros O HS HR. apply tri_put0; [keeps | auto | elsewhere |].
  intros w HP. specialize (O w HP). intros k. specialize (HS k).
  destruct k; unfold present; cbn [w_code w_tok w_pool w_stable w_stake w_rewards w_vest w_fact w_hop w_trader set_vest];
    rewrite ?fmem_set, ?Z.eqb_refl, ?fget_set_same, ?O; cbn [vest_has orb] in HS;
    try (rewrite <- HS, ?orb_false_r; reflexivity); try exact HS;
    unfold fmem; rewrite ?O; simpl; rewrite ?orb_true_r; reflexivity.
Qed.
Lemma tri_put_fact (P R : World -> Prop) a s x ks :
  (forall w, P w -> fget a (w_fact w) = Some s) ->
  (forall k, fact_has x k = fact_has s k || existsb (key_eqb k) ks) ->
  (forall w, P w -> R (set_fact w (fset a x (w_fact w)))) -> tri P (z_put_fact a x ks) (fun _ => R).
Proof.
  intros O HS HR. apply tri_put0; [keeps | auto | elsewhere |].
  intros w HP. specialize (O w HP). intros k. specialize (HS k).
  destruct k; unfold present; cbn [w_code w_tok w_pool w_stable w_stake w_rewards w_vest w_fact w_hop w_trader set_fact];
    rewrite ?fmem_set, ?Z.eqb_refl, ?fget_set_same, ?O; cbn [fact_has orb] in HS;
    try (rewrite <- HS, ?orb_false_r; reflexivity); try exact HS;
    unfold fmem; rewrite ?O; simpl; rewrite ?orb_true_r; reflexivity.
Qed.

(** *** deployment and tokens *)
Lemma tri_deploy (P : World -> Prop) a k : (forall w m, P w -> P (set_code w m)) ->
  tri P (z_deploy a k) (fun _ w => (P w /\ coded w a) /\ fget a (w_tok w) = None).
Proof.
  intros S w l W HP. unfold z_deploy, deploy, mbind, tf, mget, mguard, mmod, tnote. cbn [fst snd].
  destruct ((0 <=? a) && negb (fmem a (w_code w))) eqn:G; auto. cbn [fst snd].
  apply andb_true_iff in G as [_ G]. apply negb_true_iff in G.
  assert (N : fget a (w_tok w) = None).
  { specialize (W a). unfold fmem in W at 1. destruct (fget a (w_tok w)); auto. rewrite W in G; auto. discriminate. }
  assert (E : forall c y, present (set_code w (fset a k (w_code w))) c y = present w c y || ((c =? a) && key_eqb y YInst)).
  { intros c y. destruct y; unfold present; cbn [w_code w_tok w_pool w_stable w_stake w_rewards w_vest w_fact w_hop w_trader set_code key_eqb];
      rewrite ?andb_false_r, ?orb_false_r; auto. rewrite fmem_set, andb_true_r.
    destruct (c =? a), (fmem c (w_code w)), (fmem c (w_tok w)); reflexivity. }
  split. { intros t X. unfold set_code. cbn. rewrite fmem_set. apply W in X. rewrite X. apply orb_true_r. }
  split. { repeat split; [now apply S | | exact N]. unfold coded, set_code. cbn. now rewrite fmem_set, Z.eqb_refl. }
  exists [mkT a YInst Put]. split; auto. split; unfold here.
  - intros c y X. rewrite E, X. reflexivity.
  - intros c y X. rewrite E in X. apply orb_true_iff in X as [X|X]; auto. right.
    apply andb_true_iff in X as [X1 X2]. apply Z.eqb_eq in X1. subst. destruct (key_eqb_spec y YInst); [subst; simpl; auto | discriminate].
  - intros c y [X|[]]. inversion X; subst. rewrite E, Z.eqb_refl. apply orb_true_r.
  - simpl. auto.
Qed.
Lemma tri_put_tok (P R : World -> Prop) t x : t_bal x = fempty ->
  (forall w, P w -> coded w t /\ fget t (w_tok w) = None) ->
  (forall w m, P w -> R (set_tok w m)) -> tri P (tf (put_tok t x)) (fun _ => R).
Proof.
  intros B H HR w l W HP. destruct (H w HP) as [C N].
  assert (E : forall c y, present (set_tok w (fset t x (w_tok w))) c y = present w c y).
  { intros c y. destruct y; unfold present; cbn [w_code w_tok w_pool w_stable w_stake w_rewards w_vest w_fact w_hop w_trader set_tok]; auto.
    - rewrite fmem_set. destruct (Z.eqb_spec c t) as [->|]; auto. unfold coded in C. rewrite C. reflexivity.
    - destruct (Z.eq_dec c t) as [->|]; [|now rewrite fget_set_other]. now rewrite fget_set_same, N, B. }
  unfold tf, put_tok, mmod. cbn [fst snd]. split; [|split; [now apply HR|]].
  - intros u X. unfold set_tok in *. cbn in *. rewrite fmem_set in X. apply orb_true_iff in X as [X|X]; [|auto].
    apply Z.eqb_eq in X. subst. exact C.
  - exists []. rewrite app_nil_r. split; [reflexivity|]. split; unfold here.
    + intros c k X. now rewrite E.
    + intros c k X. rewrite E in X. auto.
    + intros c k [].
    + exact I.
Qed.
Lemma tri_tok_deploy (P : World -> Prop) t a d : (forall w m, P w -> P (set_code w m)) -> (forall w m, P w -> P (set_tok w m)) ->
  tri P (z_tok_deploy t a d) (fun _ => P).
Proof.
  intros S S'. unfold z_tok_deploy. eapply tri_bind; [apply tri_deploy, S|]. intros [].
  apply tri_guard. intros _. apply tri_put_tok; [reflexivity | tauto |]. intros w m [[H _] _]. auto.
Qed.

Lemma tri_upd_tok (P : World -> Prop) t f us : (forall w m, P w -> P (set_tok w m)) ->
  (forall k k', f k = Ok k' -> forall u, fmem u (t_bal k') = fmem u (t_bal k) || existsb (Z.eqb u) us) ->
  tri P (z_upd_tok t f us) (fun _ => P).
Proof.
  intros S F w l W HP. unfold z_upd_tok, upd_tok, get_tok, put_tok, come, mbind, tf, mlift, mmod, tnote. cbn [fst snd].
  destruct (fget t (w_tok w)) as [k|] eqn:G; auto. destruct (f k) as [k'|] eqn:E; auto. cbn [fst snd].
  specialize (F k k' E). match goal with |- context [flat_map ?g us] => set (D := flat_map g us) end.
  assert (M : fmem t (w_tok w) = true) by (unfold fmem; now rewrite G).
  split. { intros u X. unfold set_tok in *. cbn in *. rewrite fmem_set in X. apply orb_true_iff in X as [X|X]; [|auto].
    apply Z.eqb_eq in X. subst. auto. }
  split; [now apply S|].
  exists ([mkT t YInst Look; mkT t YInst (Bump TI)] ++ D). rewrite app_assoc. split; [reflexivity|].
  apply grow_app with w.
  { apply grow_note; auto. intros c y b [X|[X|[]]]; inversion X; subst. unfold here, present. rewrite M. apply orb_true_r. }
  assert (PD : forall c y, In (mkT c y Put) D <-> c = t /\ exists u, y = YBal u /\ In u us).
  { intros c y. unfold D. rewrite in_flat_map. split.
    - intros (u & I & [X|[X|[X|[]]]]); inversion X; subst; eauto.
    - intros (-> & u & -> & I). exists u. simpl. auto. }
  assert (Q : forall c y, present (set_tok w (fset t k' (w_tok w))) c y =
      present w c y || ((c =? t) && match y with YBal u => existsb (Z.eqb u) us | _ => false end)).
  { intros c y. destruct y; unfold present; cbn [w_code w_tok w_pool w_stable w_stake w_rewards w_vest w_fact w_hop w_trader set_tok];
      rewrite ?andb_false_r, ?orb_false_r; auto.
    - rewrite fmem_set. destruct (Z.eqb_spec c t) as [->|]; auto. rewrite M. destruct (fmem t (w_code w)); reflexivity.
    - destruct (Z.eqb_spec c t) as [->|]; [|rewrite fget_set_other by auto; now rewrite orb_false_r].
      rewrite fget_set_same, G. apply F. }
  assert (IU : forall u, existsb (Z.eqb u) us = true <-> In u us).
  { intros u. rewrite existsb_exists. split; [intros (y & I & X); apply Z.eqb_eq in X; now subst | intros I; exists u; split; auto; apply Z.eqb_refl]. }
  split; unfold here.
  - intros c y X. rewrite Q, X. reflexivity.
  - intros c y X. rewrite Q in X. apply orb_true_iff in X as [X|X]; auto. right. apply PD.
    apply andb_true_iff in X as [X1 X2]. apply Z.eqb_eq in X1. split; auto. destruct y; try discriminate.
    exists u. split; auto. now apply IU.
  - intros c y X. apply PD in X as (-> & u & -> & I). rewrite Q, Z.eqb_refl. apply IU in I. rewrite I. apply orb_true_r.
  - unfold D. clear. generalize (fun c k => present w c k = true). induction us as [|u tl IH]; intros S0; [exact I|]. simpl. auto.
Qed.
