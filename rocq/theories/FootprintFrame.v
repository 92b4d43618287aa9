(** What a call changes.  For every entry point of Touch.v: an entry that the record does not list
    as written, and that is not the instance entry of a contract the record lists, holds after the
    call what it held before. *)
From Coq Require Import ZArith List Bool Lia.
From Verif Require Import Base FMap Decimal Curve World Token Stake Pool Stable Rewards Vest Factory Router System.
From Verif Require Import Touch TouchErase Life TouchCover TouchGrow LifeLemmas TouchLogs Footprint FootprintSim.
Import ListNotations.
Open Scope list_scope.
Open Scope Z_scope.

Section Frame.
Variable w0 : World.
Hypothesis blank : forall c, fget c (w_code w0) = None -> fget c (w_tok w0) = None.
Variable W : Addr -> Key -> Prop.
Definition note (x : Touch) : Prop :=
  match x_act x, x_key x with Put, y => W (x_at x) y | _, YInst => W (x_at x) YInst | _, _ => True end.
Definition noted (D : list Touch) : Prop := forall x, In x D -> note x.
Definition NW (c : Addr) (y : Key) : Prop := ~ W c y.
(** nothing outside [W] changed, and no contract disappeared *)
Record Fr (w : World) : Prop := {
  fr_same : forall c y, NW c y -> same w0 w c y;
  fr_code : forall c, fmem c (w_code w0) = true -> fmem c (w_code w) = true;
  fr_stake : forall c, fmem c (w_stake w0) = true -> fmem c (w_stake w) = true;
  fr_rewards : forall c, fmem c (w_rewards w0) = true -> fmem c (w_rewards w) = true;
  fr_vest : forall c, fmem c (w_vest w0) = true -> fmem c (w_vest w) = true;
  fr_fact : forall c, fmem c (w_fact w0) = true -> fmem c (w_fact w) = true }.
Definition frm {A} (m : TST A) (Q : A -> Prop) : Prop := forall w l r w' D,
  Fr w -> m (w, l) = Ok (r, (w', l ++ D)) -> noted D -> Q r /\ Fr w'.

Lemma frm_bind {A B} (m : TST A) (k : A -> TST B) Q R : grow m -> (forall a, grow (k a)) ->
  frm m Q -> (forall a, Q a -> frm (k a) R) -> frm (mbind m k) R.
Proof.
  intros G1 G2 S K w l r w' D I X N. unfold mbind in *. pose proof (G1 w l) as G.
  destruct (m (w, l)) as [[a [wa la]]|] eqn:E1; [|discriminate]. destruct G as (D1 & -> & _).
  pose proof (G2 a wa (l ++ D1)) as G. rewrite X in G. destruct G as (D2 & E & _). rewrite <- app_assoc in E. apply app_inv_head in E. subst D.
  rewrite app_assoc in X. destruct (S w l a wa D1 I E1) as [Qa Ia].
  { intros x J. apply N, in_or_app. auto. }
  apply (K a Qa wa _ r w' D2 Ia X). intros x J. apply N, in_or_app. auto.
Qed.
Lemma frm_ahead {A} x (m : TST A) Q : emits x m -> (note x -> frm m Q) -> frm m Q.
Proof.
  intros E K w l r w' D I X N. pose proof (E w l) as G. rewrite X in G. destruct G as (D' & Y & J).
  apply app_inv_head in Y. subst D'. apply (K (N _ J)) with (w := w) (l := l) (D := D); auto.
Qed.
Lemma frm_aheads {A} L (m : TST A) Q : (forall x, In x L -> emits x m) -> (noted L -> frm m Q) -> frm m Q.
Proof.
  induction L as [|x tl IH]; intros E K; [apply K; intros x [] |]. apply (frm_ahead x); [apply E; left; auto|]. intros Fx.
  apply IH; [intros y I; apply E; right; auto|]. intros N. apply K. intros y [<-|I]; auto.
Qed.
Lemma frm_post {A} (m : TST A) (Q R : A -> Prop) : frm m Q -> (forall a, Q a -> R a) -> frm m R.
Proof. intros S K w l r w' D I X N. destruct (S _ _ _ _ _ I X N). auto. Qed.
Lemma frm_ret {A} (a : A) (Q : A -> Prop) : Q a -> frm (mret a) Q.
Proof. intros H w l r w' D I X N. unfold mret in X. inversion X; subst. auto. Qed.
Lemma frm_lift {A} (r : res A) : frm (mlift r) (fun a => r = Ok a).
Proof. intros w l x w' D I X N. unfold mlift in X. destruct r; [|discriminate]. inversion X; subst. auto. Qed.
Lemma frm_guard b e : frm (mguard b e) (fun _ => b = true).
Proof. intros w l x w' D I X N. unfold mguard in X. destruct b; [|discriminate]. inversion X; subst. auto. Qed.
Lemma frm_fail {A} e Q : frm (mfail e : TST A) Q.
Proof. intros w l x w' D I X. discriminate. Qed.
Lemma frm_note D0 : frm (tnote D0) (fun _ => noted D0).
Proof. intros w l x w' D I X N. unfold tnote in X. cbn in X. inversion X as [[A1 A2 A3]]. subst. apply app_inv_head in A3. subst. auto. Qed.
Lemma frm_tf {A} (m : ST World A) (Q : A -> Prop) : (forall w r w', Fr w -> m w = Ok (r, w') -> Q r /\ Fr w') -> frm (tf m) Q.
Proof.
  intros H w l r w' D I X N. unfold tf in X. cbn in X. destruct (m w) as [[a v]|] eqn:E; [|discriminate]. inversion X; subst. eapply H; eauto.
Qed.
Lemma frm_read {A} (m : ST World A) : (forall w r w', m w = Ok (r, w') -> w' = w) -> frm (tf m) (fun _ => True).
Proof. intros H. apply frm_tf. intros w r w' I X. rewrite (H _ _ _ X). auto. Qed.
Lemma frm_mget : frm (tf mget) Fr.
Proof. apply frm_tf. intros w r w' I X. inversion X; subst. auto. Qed.
Lemma frm_enter c k : frm (tf (enter c k)) (fun _ => True).
Proof. apply frm_read. intros w r w' X. unfold enter, mget, mbind, mguard in X. destruct (is_code c k w); [|discriminate]. inversion X; auto. Qed.
Lemma frm_auth e c a : frm (tf (require_auth e c a)) (fun _ => True).
Proof. apply frm_read. intros w r w' X. unfold require_auth, mguard in X. destruct (authed e c a); [|discriminate]. inversion X; auto. Qed.
Lemma frm_now : frm (tf now) (fun _ => True).
Proof. apply frm_read. intros w r w' X. inversion X; auto. Qed.
Lemma frm_deadline n d : frm (tf (check_deadline n d)) (fun _ => True).
Proof.
  apply frm_read. intros w r w' X. unfold check_deadline, now, mgets, mguard, mbind in X.
  destruct (match d with Some d => negb (d <? w_now w) | None => true end); [|discriminate]. inversion X; auto.
Qed.

(** records that differ from the ledger before only in entries of [W] *)
Definition bare (y : Key) : bool := match y with YHist _ | YUser _ | YAdj _ | YVest _ _ | YPair _ _ | YBal _ | YDists => true | _ => false end.
Definition NB (c : Addr) (y : Key) : Prop := NW c y /\ bare y = true.
Definition isnew c (f : Key -> bool) : Prop := forall y, f y = true -> ~ NW c y.
Definition pkey (y : Key) : bool := match y with YInit => true | _ => pool_key y end.
Definition rkey (y : Key) : bool := match y with YInit => true | _ => rewards_key y end.
Definition vkey (y : Key) : bool := match y with YInst | YAdmin => true | _ => false end.
Definition fkey (y : Key) : bool := match y with YInit => true | _ => fact_key y end.
Definition tkey (y : Key) : bool := match y with YInst => true | _ => false end.
Definition stake0 := mkStake 0 0 0 0 0 0 0 0 fempty fempty [] fempty.
Definition rewards0 := mkRewards 0 0 0 0 0 0 0 0 0 0 (Constant 0) fempty.
Definition vest0 := mkVest 0 0 0 None fempty.
Definition fact0 := mkFact 0 0 0 0 0 0 [] 0 [] fempty.
Definition token0 := mkToken 0 0 fempty fempty 0 0.
Definition okP c p := match fget c (w_pool w0) with Some q => poolrel NW c q p | None => isnew c pkey end.
Definition okK c p := match fget c (w_stake w0) with Some q => stakerel NW c q p | None => stakerel NB c stake0 p /\ isnew c stake_key end.
Definition okR c p := match fget c (w_rewards w0) with Some q => rewardsrel NW c q p | None => rewardsrel NB c rewards0 p /\ isnew c rkey end.
Definition okV c p := match fget c (w_vest w0) with Some q => vestrel NW c q p | None => vestrel NB c vest0 p /\ isnew c vkey end.
Definition okF c p := match fget c (w_fact w0) with Some q => factrel NW c q p | None => factrel NB c fact0 p /\ isnew c fkey end.
Definition okT c p := match fget c (w_tok w0) with Some q => tokrel NW c q p | None => tokrel NB c token0 p /\ isnew c tkey end.

Ltac eqz := match goal with I : Fr ?w, H : NW _ _ |- _ => let Zs := fresh "Zs" in pose proof (fr_same _ I _ _ H) as Zs; simpl in Zs end;
  unfold fld, sub, dists_of, pair_get, fmem in *;
  repeat match goal with G : fget ?c (?m ?w) = _, Zs : context [fget ?c (?m ?w)] |- _ => rewrite G in Zs end; simpl in *;
  repeat match goal with H : _ /\ _ |- _ => destruct H end; congruence.
Ltac gets2 := split; auto;
  lazymatch goal with |- okP _ _ => unfold okP | |- okK _ _ => unfold okK | |- okR _ _ => unfold okR | |- okV _ _ => unfold okV | |- okF _ _ => unfold okF | |- okT _ _ => unfold okT end;
  match goal with |- context [match fget ?c ?m with _ => _ end] => destruct (fget c m) as [q|] eqn:? end;
  [constructor; intros; eqz |];
  repeat match goal with |- _ /\ _ => split end;
  try (intros y K N; destruct y; try discriminate K; eqz);
  try (constructor; intros; match goal with H : NB _ _ |- _ => let B := fresh in destruct H as [H B]; try discriminate B end; eqz).
Lemma frm_get_pool c : frm (tf (get_pool c)) (okP c).
Proof.
  apply frm_tf. intros w r w' I X. unfold get_pool in X. destruct (fget c (w_pool w)) as [p|] eqn:G; [|discriminate]. inversion X; subst; clear X. gets2.
Qed.
Lemma frm_get_stake c : frm (tf (get_stake c)) (okK c).
Proof.
  apply frm_tf. intros w r w' I X. unfold get_stake in X. destruct (fget c (w_stake w)) as [p|] eqn:G; [|discriminate]. inversion X; subst; clear X. gets2.
Qed.
Lemma frm_get_rewards c : frm (tf (get_rewards c)) (okR c).
Proof.
  apply frm_tf. intros w r w' I X. unfold get_rewards in X. destruct (fget c (w_rewards w)) as [p|] eqn:G; [|discriminate]. inversion X; subst; clear X. gets2.
Qed.
Lemma frm_get_vest c : frm (tf (get_vest c)) (okV c).
Proof.
  apply frm_tf. intros w r w' I X. unfold get_vest in X. destruct (fget c (w_vest w)) as [p|] eqn:G; [|discriminate]. inversion X; subst; clear X. gets2.
Qed.
Lemma frm_get_fact c : frm (tf (get_fact c)) (okF c).
Proof.
  apply frm_tf. intros w r w' I X. unfold get_fact in X. destruct (fget c (w_fact w)) as [p|] eqn:G; [|discriminate]. inversion X; subst; clear X. gets2.
Qed.
Lemma frm_get_tok c : frm (tf (get_tok c)) (okT c).
Proof.
  apply frm_tf. intros w r w' I X. unfold get_tok in X. destruct (fget c (w_tok w)) as [p|] eqn:G; [|discriminate]. inversion X; subst; clear X. gets2.
Qed.

Ltac mono I := first [exact (fr_code _ I) | exact (fr_stake _ I) | exact (fr_rewards _ I) | exact (fr_vest _ I) | exact (fr_fact _ I)
  | intros ? M; cbn; rewrite fmem_set; match goal with |- context [?a =? ?b] => destruct (a =? b) end; [reflexivity | first [apply (fr_code _ I _ M) | apply (fr_stake _ I _ M) | apply (fr_rewards _ I _ M) | apply (fr_vest _ I _ M) | apply (fr_fact _ I _ M)]]].
Ltac use_rel := repeat match goal with
  | H : _ /\ isnew _ _ |- _ => destruct H
  | H : isnew ?c ?f, N : NW ?c ?y |- _ => exfalso; exact (H y eq_refl N)
  end.
Ltac puts2 ok := intros OK; apply frm_tf; intros w r w' I X; inversion X; subst; clear X; split; [exact Logic.I |];
  constructor; [| mono I ..];
  intros c' y N; pose proof (fr_same _ I c' y N) as Zs; unfold ok in OK; destruct y; cbn in Zs |- *; unfold fld, sub, dists_of in *; cbn;
  rewrite ?fget_set, ?fmem_set; try exact Zs;
  match goal with |- context [?a =? ?b] => destruct (a =? b) eqn:E; [apply Z.eqb_eq in E; subst | exact Zs] end; unfold fmem in *;
  match type of OK with match fget ?c ?m with _ => _ end => destruct (fget c m) as [q|] eqn:G end; cbn in *; use_rel;
  repeat match goal with H : _ /\ _ |- _ => destruct H end; repeat split; auto; try congruence;
  try match goal with R : poolrel _ _ _ _ |- _ => destruct R; f_equal; auto; fail end;
  try match goal with R : stakerel _ _ _ _ |- _ => destruct R; first [f_equal; solve [auto] | solve [auto] | symmetry; solve [auto]] end;
  try match goal with R : rewardsrel _ _ _ _ |- _ => destruct R; first [f_equal; solve [auto] | solve [auto]] end;
  try match goal with R : vestrel _ _ _ _ |- _ => destruct R; first [f_equal; solve [auto] | solve [auto]] end;
  try match goal with R : factrel _ _ _ _ |- _ => destruct R; first [f_equal; solve [auto] | solve [auto]] end;
  try match goal with R : tokrel _ _ _ _ |- _ => destruct R; first [f_equal; solve [auto] | solve [auto]] end.
Lemma frm_put_pool c p : okP c p -> frm (tf (put_pool c p)) (fun _ => True).
Proof. puts2 okP. Qed.
Ltac fin := match goal with
  | R : stakerel _ _ _ _, N : NW _ _ |- _ => first [exact (kr_dists _ _ _ _ R (conj N eq_refl)) | exact (kr_rh _ _ _ _ R _ (conj N eq_refl)) | exact (kr_users _ _ _ _ R _ (conj N eq_refl))]
  | R : rewardsrel _ _ _ _, N : NW _ _ |- _ => exact (rr_adj _ _ _ _ R _ (conj N eq_refl))
  | R : vestrel _ _ _ _, N : NW _ _ |- _ => first [exact (vr_ent _ _ _ _ R _ _ N) | exact (vr_ent _ _ _ _ R _ _ (conj N eq_refl))]
  | R : factrel _ _ _ _, N : NW _ _ |- _ => first [exact (fr_pair _ _ _ _ R _ _ N) | exact (fr_pair _ _ _ _ R _ _ (conj N eq_refl))]
  | R : tokrel _ _ _ _, N : NW _ _ |- _ => exact (tr_bal _ _ _ _ R _ (conj N eq_refl))
  end.
Lemma frm_put_stake c p : okK c p -> frm (tf (put_stake c p)) (fun _ => True).
Proof. puts2 okK; fin. Qed.
Lemma frm_put_rewards c p : okR c p -> frm (tf (put_rewards c p)) (fun _ => True).
Proof. puts2 okR; fin. Qed.
Lemma frm_put_vest c p : okV c p -> frm (tf (put_vest c p)) (fun _ => True).
Proof. puts2 okV; fin. Qed.
Lemma frm_put_fact c p : okF c p -> frm (tf (put_fact c p)) (fun _ => True).
Proof. puts2 okF; fin. Qed.
Lemma frm_put_tok c p : okT c p -> frm (tf (put_tok c p)) (fun _ => True).
Proof. puts2 okT; fin. Qed.
(** the others are kept in the instance entry, or written as a whole *)
Definition okL c := W c YInst /\ (NW c YInit -> fmem c (w_stable w0) = true).
Ltac puts3 := apply frm_tf; intros w r w' I X; inversion X; subst; clear X; split; [exact Logic.I |];
  constructor; [| mono I ..];
  intros c' y N; pose proof (fr_same _ I c' y N) as Zs; destruct y; cbn in Zs |- *; unfold fld, sub, dists_of in *; cbn;
  rewrite ?fget_set, ?fmem_set; try exact Zs;
  match goal with |- context [?a =? ?b] => destruct (a =? b) eqn:E; [apply Z.eqb_eq in E; subst | exact Zs] end; try (exfalso; solve [auto]);
  repeat match goal with H : _ /\ _ |- _ => destruct H end; repeat split; auto.
Lemma frm_put_stable c p : okL c -> frm (tf (put_stable c p)) (fun _ => True).
Proof. intros [A B]. puts3. Qed.
Lemma frm_get_stable c : W c YInst -> frm (tf (get_stable c)) (fun _ => okL c).
Proof.
  intros H. apply frm_tf. intros w r w' I X. unfold get_stable in X. destruct (fget c (w_stable w)) as [p|] eqn:G; [|discriminate]. inversion X; subst; clear X.
  split; auto. split; auto. intros N. pose proof (fr_same _ I _ _ N) as Zs. simpl in Zs. destruct Zs as (_ & Zs & _). unfold fmem in *. rewrite G in Zs. exact Zs.
Qed.
Lemma frm_put_hop c p : W c YInst -> W c YInit -> frm (tf (put_hop c p)) (fun _ => True).
Proof. intros A B. puts3. Qed.
Lemma frm_put_wasm c p : W c YInst -> frm (tf (put_wasm c p)) (fun _ => True).
Proof. intros A. puts3. Qed.
Lemma frm_put_trader c p : W c YInit -> W c YAdmin -> W c YName -> W c YTPair -> W c YTOut -> frm (tf (put_trader c p)) (fun _ => True).
Proof. intros A B C D E0. puts3. Qed.
Lemma frm_get_hop c : frm (tf (get_hop c)) (fun _ => True).
Proof. apply frm_read. intros w r w' X. unfold get_hop in X. destruct (fget c (w_hop w)); inversion X; auto. Qed.
Lemma frm_get_trader c : frm (tf (get_trader c)) (fun _ => True).
Proof. apply frm_read. intros w r w' X. unfold get_trader in X. destruct (fget c (w_trader w)); inversion X; auto. Qed.
Lemma frm_deploy c k : W c YInst -> frm (tf (deploy c k)) (fun _ => fget c (w_code w0) = None).
Proof.
  intros H. apply frm_tf. intros w r w' I X. unfold deploy, mget, mbind, mguard, mmod in X.
  destruct ((0 <=? c) && negb (fmem c (w_code w))) eqn:E; [|discriminate]. inversion X; subst; clear X. apply andb_prop in E as [_ E]. apply negb_true_iff in E. split.
  - pose proof (fr_code _ I c) as M. unfold fmem in *. destruct (fget c (w_code w0)); auto. rewrite M in E by auto. discriminate.
  - constructor; [| mono I ..]. intros c' y N. pose proof (fr_same _ I c' y N) as Zs. destruct y; cbn in *; try exact Zs. rewrite fget_set.
    destruct (c' =? c) eqn:Ec; [|exact Zs]. apply Z.eqb_eq in Ec. subst. exfalso. auto.
Qed.

(** *** tactics *)
Ltac lgz := unfold grow; logTs.
Ltac emleaf := unfold come, seen, instP, got, peek, looks, wrote, puts, got_notes, wrote_notes; apply em_note; simpl; solve [auto 16].
Ltac emz := cbv zeta; lazymatch goal with
  | |- emits _ (mbind _ _) => first [apply em_l; [solve [emleaf] | intros ?; solve [lgz]] | apply em_r; [solve [lgz] | intros ?; emz]]
  | |- emits _ (match ?t with _ => _ end) => destruct t; emz
  | |- emits _ (z_put_pool _ _ _) => unfold z_put_pool; emz
  | |- emits _ (z_put_stake _ _ _) => unfold z_put_stake; emz
  | |- emits _ (z_put_vest _ _ _) => unfold z_put_vest; emz
  | |- _ => emleaf end.
Lemma noted_cons x D : noted (x :: D) <-> note x /\ noted D.
Proof. unfold noted; simpl; split; [intros H; split; auto | intros [A B] y [<-|I]; auto]. Qed.
Fixpoint allW (c : Addr) (ks : list Key) : Prop := match ks with [] => True | y :: tl => W c y /\ allW c tl end.
Lemma allW_in c ks : allW c ks <-> forall y, In y ks -> W c y.
Proof.
  induction ks as [|x tl IH]; simpl; [split; auto; intros _ y []|]. rewrite IH. split; [intros [A B] y [<-|I]; auto | intros H; split; auto].
Qed.
Lemma noted_puts c ks : noted (map (fun y => mkT c y Put) ks) -> allW c ks.
Proof. intros N. apply allW_in. intros y I. apply (N (mkT c y Put)). apply in_map_iff. eauto. Qed.
Lemma in_wrote c ks x : In x (map (fun y => mkT c y Put) ks) -> In x (wrote_notes c ks).
Proof. intros I. apply in_map_iff in I as (y & <- & J). unfold wrote_notes. apply in_flat_map. exists y. simpl. auto. Qed.
Lemma frm_wr (m : TST unit) c ks : grow m -> (allW c ks -> frm m (fun _ => True)) -> frm (m ;; wrote c ks) (fun _ => True).
Proof.
  intros G K. apply (frm_aheads (map (fun y => mkT c y Put) ks)).
  { intros x I. apply em_r; [exact G | intros ?]. apply em_note, in_wrote, I. }
  intros N. apply noted_puts in N. eapply frm_bind; [exact G | intros ?; solve [lgz] | apply K, N | intros ? _]. eapply frm_post; [apply frm_note | auto].
Qed.
Lemma frm_zput_pool c p ks : (allW c ks -> okP c p) -> frm (z_put_pool c p ks) (fun _ => True).
Proof. intros H. apply frm_wr; [solve [lgz] | intros A; apply frm_put_pool, H, A]. Qed.
Lemma frm_zput_stake c p ks : (allW c ks -> okK c p) -> frm (z_put_stake c p ks) (fun _ => True).
Proof. intros H. apply frm_wr; [solve [lgz] | intros A; apply frm_put_stake, H, A]. Qed.
Lemma frm_zput_vest c p ks : (allW c ks -> okV c p) -> frm (z_put_vest c p ks) (fun _ => True).
Proof. intros H. apply frm_wr; [solve [lgz] | intros A; apply frm_put_vest, H, A]. Qed.
Lemma frm_zput_fact c p ks : (allW c ks -> okF c p) -> frm (z_put_fact c p ks) (fun _ => True).
Proof. intros H. apply frm_wr; [solve [lgz] | intros A; apply frm_put_fact, H, A]. Qed.
Lemma frm_zput_stable c p ks : (allW c ks -> okL c) -> frm (z_put_stable c p ks) (fun _ => True).
Proof. intros H. apply frm_wr; [solve [lgz] | intros A; apply frm_put_stable, H, A]. Qed.
Lemma frm_zput_hop c p ks : (allW c ks -> W c YInst /\ W c YInit) -> frm (z_put_hop c p ks) (fun _ => True).
Proof. intros H. apply frm_wr; [solve [lgz] | intros A; apply frm_put_hop; apply H, A]. Qed.
Lemma frm_zput_trader c p ks : (allW c ks -> W c YInit /\ W c YAdmin /\ W c YName /\ W c YTPair /\ W c YTOut) -> frm (z_put_trader c p ks) (fun _ => True).
Proof. intros H. apply frm_wr; [solve [lgz] | intros A; apply frm_put_trader; apply H, A]. Qed.
Lemma frm_zput_rewards c p ks ps : (allW c ks -> allW c ps -> okR c p) -> frm (z_put_rewards c p ks ps) (fun _ => True).
Proof.
  intros H. unfold z_put_rewards. apply (frm_aheads (map (fun y => mkT c y Put) ps)).
  { intros x I. apply em_r; [solve [lgz] | intros ?]. apply em_r; [solve [lgz] | intros ?]. apply em_note, I. }
  intros N. apply noted_puts in N. apply (frm_aheads (map (fun y => mkT c y Put) ks)).
  { intros x I. apply em_r; [solve [lgz] | intros ?]. apply em_l; [apply em_note, in_wrote, I | intros ?; solve [lgz]]. }
  intros M. apply noted_puts in M. eapply frm_bind; [solve [lgz] | intros ?; solve [lgz] | apply frm_put_rewards; auto | intros ? _].
  eapply frm_bind; [solve [lgz] | intros ?; solve [lgz] | apply frm_note | intros ? _]. eapply frm_post; [apply frm_note | auto].
Qed.
Lemma frm_zget_pool c ks : frm (z_get_pool c ks) (okP c).
Proof. unfold z_get_pool. eapply frm_bind; [solve [lgz] | intros ?; solve [lgz] | apply frm_get_pool | intros p H]. eapply frm_bind; [solve [lgz] | intros ?; solve [lgz] | apply frm_note | intros ? _; apply frm_ret, H]. Qed.
Lemma frm_zget_stake c ks : frm (z_get_stake c ks) (okK c).
Proof. unfold z_get_stake. eapply frm_bind; [solve [lgz] | intros ?; solve [lgz] | apply frm_get_stake | intros p H]. eapply frm_bind; [solve [lgz] | intros ?; solve [lgz] | apply frm_note | intros ? _; apply frm_ret, H]. Qed.
Lemma frm_zget_vest c ks : frm (z_get_vest c ks) (okV c).
Proof. unfold z_get_vest. eapply frm_bind; [solve [lgz] | intros ?; solve [lgz] | apply frm_get_vest | intros p H]. eapply frm_bind; [solve [lgz] | intros ?; solve [lgz] | apply frm_note | intros ? _; apply frm_ret, H]. Qed.
Lemma frm_zget_fact c ks : frm (z_get_fact c ks) (okF c).
Proof. unfold z_get_fact. eapply frm_bind; [solve [lgz] | intros ?; solve [lgz] | apply frm_get_fact | intros p H]. eapply frm_bind; [solve [lgz] | intros ?; solve [lgz] | apply frm_note | intros ? _; apply frm_ret, H]. Qed.
Lemma frm_zget_trader c ks : frm (z_get_trader c ks) (fun _ => True).
Proof. unfold z_get_trader. eapply frm_bind; [solve [lgz] | intros ?; solve [lgz] | apply frm_get_trader | intros p H]. eapply frm_bind; [solve [lgz] | intros ?; solve [lgz] | apply frm_note | intros ? _; apply frm_ret, H]. Qed.
Lemma frm_zget_rewards c ks ls : frm (z_get_rewards c ks ls) (okR c).
Proof.
  unfold z_get_rewards. eapply frm_bind; [solve [lgz] | intros ?; solve [lgz] | apply frm_get_rewards | intros p H].
  eapply frm_bind; [solve [lgz] | intros ?; solve [lgz] | apply frm_note | intros ? _]. eapply frm_bind; [solve [lgz] | intros ?; solve [lgz] | apply frm_note | intros ? _; apply frm_ret, H].
Qed.

Ltac wfacts H := unfold got_notes, wrote_notes in H; cbn [flat_map map app] in H; rewrite ?noted_cons in H; unfold note in H; cbn [x_at x_key x_act] in H;
  repeat match type of H with _ /\ _ => let H1 := fresh "Wy" in destruct H as [H1 H]; try (match type of H1 with True => clear H1 end) end; try clear H.
Ltac aheadw c y a := apply (frm_ahead (mkT c y a)); [solve [emz] | let H := fresh "Wy" in intro H; unfold note in H; cbn [x_at x_key x_act] in H].
Ltac okstep := match goal with
  | H : NW ?c ?y, V : W ?c ?y |- _ => exfalso; exact (H V)
  | H : NB _ _ |- _ => let B := fresh in destruct H as [H B]; try discriminate B
  | R : poolrel _ _ _ _, H : NW _ _ |- _ => first [exact (pr_config _ _ _ _ R H) | exact (pr_admin _ _ _ _ R H) | exact (pr_slip _ _ _ _ R H) | exact (pr_total _ _ _ _ R H) | exact (pr_ra _ _ _ _ R H) | exact (pr_rb _ _ _ _ R H)]
  | R : stakerel _ _ _ _, H : NW _ _ |- _ => first [exact (kr_config _ _ _ _ R H) | exact (kr_admin _ _ _ _ R H) | exact (kr_total _ _ _ _ R H) | exact (kr_tsh _ _ _ _ R H) | exact (kr_dists _ _ _ _ R H) | exact (kr_rh _ _ _ _ R _ H) | exact (kr_users _ _ _ _ R _ H)
      | exact (kr_dists _ _ _ _ R (conj H eq_refl)) | exact (kr_rh _ _ _ _ R _ (conj H eq_refl)) | exact (kr_users _ _ _ _ R _ (conj H eq_refl))]
  | R : rewardsrel _ _ _ _, H : NW _ _ |- _ => first [exact (rr_config _ _ _ _ R H) | exact (rr_admin _ _ _ _ R H) | exact (rr_distr _ _ _ _ R H) | exact (rr_curve _ _ _ _ R H) | exact (rr_adj _ _ _ _ R _ H)
      | exact (rr_adj _ _ _ _ R _ (conj H eq_refl))]
  | R : vestrel _ _ _ _, H : NW _ _ |- _ => first [exact (vr_inst _ _ _ _ R H) | exact (vr_admin _ _ _ _ R H) | exact (vr_ent _ _ _ _ R _ _ H) | exact (vr_ent _ _ _ _ R _ _ (conj H eq_refl))]
  | R : factrel _ _ _ _, H : NW _ _ |- _ => first [exact (fr_config _ _ _ _ R H) | exact (fr_lps _ _ _ _ R H) | exact (fr_stab _ _ _ _ R H) | exact (fr_pair _ _ _ _ R _ _ H) | exact (fr_pair _ _ _ _ R _ _ (conj H eq_refl))]
  | R : tokrel _ _ _ _, H : NW _ _ |- _ => first [exact (tr_inst _ _ _ _ R H) | exact (tr_bal _ _ _ _ R _ H) | exact (tr_bal _ _ _ _ R _ (conj H eq_refl))]
  end.
Ltac okgoal := repeat match goal with |- context [if ?b then set_p_res _ _ _ else _] => destruct b end;
  unfold okP, okK, okR, okV, okF, okT in *;
  try match goal with OK : match fget ?c ?m with _ => _ end |- match fget ?c ?m with _ => _ end => destruct (fget c m) as [q0|] eqn:? end;
  repeat match goal with H : _ /\ isnew _ _ |- _ => destruct H end;
  repeat match goal with |- _ /\ isnew _ _ => split; [|assumption] end; try assumption;
  constructor; intros; repeat match goal with H : NB _ _ |- _ => let B := fresh in destruct H as [H B]; try discriminate B end;
  first [okstep | cbn; rewrite fget_set; match goal with |- context [?a =? ?b] => destruct (a =? b) eqn:E; [apply Z.eqb_eq in E; subst; okstep | okstep] end].
Create HintDb frms.
Ltac postw H := cbn beta in H; lazymatch type of H with
  | noted _ => wfacts H
  | True => clear H
  | _ => idtac end.
Ltac allw A := cbn [allW] in A; repeat match type of A with _ /\ _ => let H1 := fresh "Wy" in destruct A as [H1 A] end; try clear A.
Ltac primw := lazymatch goal with
  | |- frm (tf mget) _ => apply frm_mget
  | |- frm (tf now) _ => apply frm_now
  | |- frm (tf (require_auth _ _ _)) _ => apply frm_auth
  | |- frm (tf (check_deadline _ _)) _ => apply frm_deadline
  | |- frm (tf (enter _ _)) _ => apply frm_enter
  | |- frm (tf (deploy _ _)) _ => apply frm_deploy; assumption
  | |- frm (tf (get_pool _)) _ => apply frm_get_pool
  | |- frm (tf (get_stake _)) _ => apply frm_get_stake
  | |- frm (tf (get_rewards _)) _ => apply frm_get_rewards
  | |- frm (tf (get_fact _)) _ => apply frm_get_fact
  | |- frm (tf (get_trader _)) _ => apply frm_get_trader
  | |- frm (tf (get_vest _)) _ => apply frm_get_vest
  | |- frm (tf (get_stable _)) _ => apply frm_get_stable; assumption
  | |- frm (tf (get_hop _)) _ => apply frm_get_hop
  | |- frm (tf (get_tok _)) _ => apply frm_get_tok
  | |- frm (tf (put_wasm _ _)) _ => apply frm_put_wasm; assumption
  | |- frm (z_get_pool _ _) _ => apply frm_zget_pool
  | |- frm (z_get_stake _ _) _ => apply frm_zget_stake
  | |- frm (z_get_fact _ _) _ => apply frm_zget_fact
  | |- frm (z_get_trader _ _) _ => apply frm_zget_trader
  | |- frm (z_get_rewards _ _ _) _ => apply frm_zget_rewards
  | |- frm (z_get_vest _ _) _ => apply frm_zget_vest
  | |- frm (z_put_pool _ _ _) _ => apply frm_zput_pool; let A := fresh in intros A; allw A; okgoal
  | |- frm (z_put_stake _ _ _) _ => apply frm_zput_stake; let A := fresh in intros A; allw A; okgoal
  | |- frm (z_put_fact _ _ _) _ => apply frm_zput_fact; let A := fresh in intros A; allw A; okgoal
  | |- frm (z_put_vest _ _ _) _ => apply frm_zput_vest; let A := fresh in intros A; allw A; okgoal
  | |- frm (z_put_rewards _ _ _ _) _ => apply frm_zput_rewards; let A := fresh in let B := fresh in intros A B; allw A; allw B; okgoal
  | |- frm (z_put_stable _ _ _) _ => apply frm_zput_stable; let A := fresh in intros A; allw A; first [assumption | split; [assumption | let N := fresh in intros N; exfalso; apply N; assumption]]
  | |- frm (z_put_hop _ _ _) _ => apply frm_zput_hop; let A := fresh in intros A; allw A; split; assumption
  | |- frm (z_put_trader _ _ _) _ => apply frm_zput_trader; let A := fresh in intros A; allw A; repeat split; assumption
  | |- frm (mguard _ _) _ => apply frm_guard
  | |- frm (mlift _) _ => apply frm_lift
  | |- frm (come _) _ => apply frm_note
  | |- frm (seen _) _ => apply frm_note
  | |- frm (instP _) _ => apply frm_note
  | |- frm (got _ _) _ => apply frm_note
  | |- frm (peek _ _) _ => apply frm_note
  | |- frm (looks _ _) _ => apply frm_note
  | |- frm (wrote _ _) _ => apply frm_note
  | |- frm (puts _ _) _ => apply frm_note
  | |- frm (tnote _) _ => apply frm_note
  | |- _ => solve [auto with frms] end.
Ltac f1 := cbv zeta; lazymatch goal with
  | |- frm (mbind _ _) _ =>
      eapply frm_bind; [solve [lgz] | intros ?; solve [lgz] | solve [primw] | let H := fresh "Q" in intros ? H; postw H]
  | |- frm (mret _) _ => apply frm_ret; try exact I
  | |- frm (mfail _) _ => apply frm_fail
  | |- frm (match ?t with _ => _ end) _ => destruct t eqn:?
  | |- frm _ (fun _ => True) => eapply frm_post; [solve [primw] | auto]
  end.

(** *** tokens *)
Definition tokw (t : Addr) (f : Token -> res Token) : Prop := forall k k', okT t k -> f k = Ok k' -> okT t k'.
Lemma tokw_write t u x k : W t (YBal u) -> okT t k -> okT t (tk_write_balance u x k).
Proof. intros H OK. okgoal. Qed.
Lemma tokw_receive t u x : W t (YBal u) -> tokw t (tk_receive u x).
Proof. intros H k k' OK X. unfold tk_receive in X. apply rbind_ok in X as (b & A & X). inversion X; subst. apply tokw_write; auto. Qed.
Lemma tokw_spend t u x : W t (YBal u) -> tokw t (tk_spend u x).
Proof.
  intros H k k' OK X. unfold tk_spend in X. cbv zeta in X. apply rbind_ok in X as (g & G & X). apply rbind_ok in X as (b & A & X).
  inversion X; subst. apply tokw_write; auto.
Qed.
Lemma tokw_bind t f g : tokw t f -> tokw t g -> tokw t (fun k => let? k1 := f k in g k1).
Proof. intros A B k k' OK X. apply rbind_ok in X as (k1 & X1 & X2). apply (B _ _ (A _ _ OK X1) X2). Qed.
Lemma tokw_same t (g : Token -> Token) : W t YInst -> (forall k, t_bal (g k) = t_bal k) -> tokw t (fun k => Ok (g k)).
Proof.
  intros H A k k' OK X. inversion X; subst. unfold okT in *. destruct (fget t (w_tok w0)).
  - constructor; [intros N; exfalso; auto | intros u N; rewrite A; apply (tr_bal _ _ _ _ OK _ N)].
  - destruct OK as [R N0]. split; auto. constructor; [intros [N _]; exfalso; auto | intros u N; rewrite A; apply (tr_bal _ _ _ _ R _ N)].
Qed.
Lemma tokw_write_allow t s a b x y : W t YInst -> tokw t (tk_write_allowance s a b x y).
Proof.
  intros H k k' OK X. unfold tk_write_allowance in X. apply rbind_ok in X as (g & G & X). cbv zeta in X.
  refine (tokw_same t (fun k => mkToken (t_admin k) (t_dec k) (t_bal k) _ (t_minted k) (t_burned k)) H (fun _ => eq_refl) k k' OK X).
Qed.
Lemma tokw_spend_allow t s a b x : W t YInst -> tokw t (tk_spend_allowance s a b x).
Proof.
  intros H k k' OK X. unfold tk_spend_allowance in X. destruct (tk_read_allowance s a b k) as [a0 ex]. apply rbind_ok in X as (g & G & X).
  destruct (0 <? x); [|inversion X; subst; exact OK]. apply rbind_ok in X as (a' & A & X). apply (tokw_write_allow _ _ _ _ _ _ H _ _ OK X).
Qed.
Lemma frm_upd t f us : (W t YInst -> (forall u, In u us -> W t (YBal u)) -> tokw t f) -> frm (z_upd_tok t f us) (fun _ => True).
Proof.
  intros K. unfold z_upd_tok. aheadw t YInst Look. apply (frm_aheads (map (fun u => mkT t (YBal u) Put) us)).
  { intros x J. apply in_map_iff in J as (u & <- & J). apply em_r; [solve [lgz] | intros ?]. apply em_r; [solve [lgz] | intros ?]. apply em_note, in_flat_map.
    exists u. simpl. auto. }
  intros N. assert (Fu : forall u, In u us -> W t (YBal u)). { intros u J. apply (N (mkT t (YBal u) Put)). apply in_map_iff. eauto. }
  specialize (K Wy Fu).
  eapply frm_bind; [solve [lgz] | intros ?; solve [lgz] | | intros ? _; repeat f1].
  instantiate (1 := fun _ => True). apply frm_tf. intros w r w' I X. unfold upd_tok in X. apply mbind_ok in X as (k & wk & A & X).
  apply mbind_ok in X as (k' & wk' & B & X). apply mlift_ok in B as (x0 & B & E0). inversion E0; subst; clear E0.
  destruct (frm_get_tok t w [] k wk [] I) as [OK Ik]; [unfold tf; cbn; rewrite A; reflexivity | intros x [] |].
  apply (frm_put_tok t x0 (K _ _ OK B) wk [] r w' [] Ik); [unfold tf; cbn; rewrite X; reflexivity | intros x []].
Qed.

Ltac okn := let N := fresh in intros ? K N; match goal with y : Key |- _ => destruct y end; try discriminate K; exfalso; apply N; assumption.
Lemma frm_deploys c k : frm (z_deploy c k) (fun _ => fget c (w_code w0) = None /\ W c YInst).
Proof.
  unfold z_deploy. aheadw c YInst Put. eapply frm_bind; [solve [lgz] | intros ?; solve [lgz] | apply frm_deploy; assumption | intros ? N].
  eapply frm_post; [apply frm_note | auto].
Qed.
Lemma frm_tok_deploy t a d : frm (z_tok_deploy t a d) (fun _ => True).
Proof.
  unfold z_tok_deploy. eapply frm_bind; [solve [lgz] | intros ?; solve [lgz] | apply frm_deploys | intros ? [N V]]. f1.
  apply frm_put_tok. unfold okT. rewrite (blank _ N). split; [|okn].
  constructor; [intros [_ B]; discriminate B | reflexivity].
Qed.
#[local] Hint Resolve frm_tok_deploy : frms.
Ltac infl := simpl; tauto.
Lemma frm_mint e c t to amt : frm (z_mint e c t to amt) (fun _ => True).
Proof.
  unfold z_mint. repeat (f1; []). apply frm_upd. intros V Fu. apply tokw_bind; [apply tokw_receive, Fu; infl|].
  apply tokw_same; [exact V | reflexivity].
Qed.
Lemma frm_set_admin e c t a : frm (z_set_admin e c t a) (fun _ => True).
Proof. unfold z_set_admin. repeat (f1; []). apply frm_upd. intros V Fu. apply tokw_same; [exact V | reflexivity]. Qed.
Lemma frm_approve e c t f s a x : frm (z_approve e c t f s a x) (fun _ => True).
Proof. unfold z_approve. repeat (f1; []). apply frm_upd. intros Ft _. apply tokw_write_allow, Ft. Qed.
Lemma frm_transfer e c t f to a : frm (z_transfer e c t f to a) (fun _ => True).
Proof. unfold z_transfer. repeat (f1; []). apply frm_upd. intros Ft Fu. apply tokw_bind; [apply tokw_spend, Fu | apply tokw_receive, Fu]; infl. Qed.
Lemma frm_transfer_from e c t s f to a : frm (z_transfer_from e c t s f to a) (fun _ => True).
Proof.
  unfold z_transfer_from. repeat (f1; []). apply frm_upd. intros Ft Fu.
  apply tokw_bind; [apply tokw_spend_allow, Ft|]. apply tokw_bind; [apply tokw_spend, Fu | apply tokw_receive, Fu]; infl.
Qed.
Lemma frm_burn e c t f a : frm (z_burn e c t f a) (fun _ => True).
Proof.
  unfold z_burn. repeat (f1; []). apply frm_upd. intros Ft Fu. apply tokw_bind; [apply tokw_spend, Fu; infl|]. apply tokw_same; [exact Ft | reflexivity].
Qed.
Lemma frm_burn_from e c t s f a : frm (z_burn_from e c t s f a) (fun _ => True).
Proof.
  unfold z_burn_from. repeat (f1; []). apply frm_upd. intros Ft Fu.
  apply tokw_bind; [apply tokw_spend_allow, Ft|]. apply tokw_bind; [apply tokw_spend, Fu; infl|]. apply tokw_same; [exact Ft | reflexivity].
Qed.
#[local] Hint Resolve frm_mint frm_set_admin frm_approve frm_transfer frm_transfer_from frm_burn frm_burn_from : frms.
Lemma frm_rd {A} (m : ST World A) (k : A -> TST A) : (forall w r w', m w = Ok (r, w') -> w' = w) -> (forall a, frm (k a) (fun _ => True)) ->
  (forall a, grow (k a)) -> frm (x <- tf m ;; k x) (fun _ => True).
Proof. intros R K G. eapply frm_bind; [solve [lgz] | exact G | apply frm_read, R | intros a _; apply K]. Qed.
Lemma frm_balance t a : frm (z_balance t a) (fun _ => True).
Proof.
  unfold z_balance. apply frm_rd; [| intros ?; repeat f1 | intros ?; solve [lgz]]. intros w r w' X. unfold tok_balance, get_tok, mbind, mret in X.
  destruct (fget t (w_tok w)); inversion X; auto.
Qed.
Lemma frm_decimals t : frm (z_decimals t) (fun _ => True).
Proof.
  unfold z_decimals. apply frm_rd; [| intros ?; repeat f1 | intros ?; solve [lgz]]. intros w r w' X. unfold tok_decimals, get_tok, mbind, mret in X.
  destruct (fget t (w_tok w)); inversion X; auto.
Qed.
#[local] Hint Resolve frm_balance frm_decimals : frms.

(** *** stake *)
Lemma no_stake c w : Fr w -> negb (fmem c (w_stake w)) = true -> fget c (w_stake w0) = None.
Proof. intros I N. apply negb_true_iff in N. pose proof (fr_stake _ I c) as M. unfold fmem in *. destruct (fget c (w_stake w0)); auto. rewrite M in N by auto. discriminate. Qed.
Lemma no_rewards c w : Fr w -> negb (fmem c (w_rewards w)) = true -> fget c (w_rewards w0) = None.
Proof. intros I N. apply negb_true_iff in N. pose proof (fr_rewards _ I c) as M. unfold fmem in *. destruct (fget c (w_rewards w0)); auto. rewrite M in N by auto. discriminate. Qed.
Lemma no_vest c w : Fr w -> negb (fmem c (w_vest w)) = true -> fget c (w_vest w0) = None.
Proof. intros I N. apply negb_true_iff in N. pose proof (fr_vest _ I c) as M. unfold fmem in *. destruct (fget c (w_vest w0)); auto. rewrite M in N by auto. discriminate. Qed.
Lemma no_fact c w : Fr w -> negb (fmem c (w_fact w)) = true -> fget c (w_fact w0) = None.
Proof. intros I N. apply negb_true_iff in N. pose proof (fr_fact _ I c) as M. unfold fmem in *. destruct (fget c (w_fact w0)); auto. rewrite M in N by auto. discriminate. Qed.
Ltac okfresh := split; [constructor; intros; match goal with H : NB _ _ |- _ => let B := fresh in destruct H as [H B]; try discriminate B; try reflexivity; exfalso; apply H; assumption end | okn].

Lemma frm_stake_initialize k a l mb mr m o mc : frm (z_stake_initialize k a l mb mr m o mc) (fun _ => True).
Proof.
  unfold z_stake_initialize. aheadw k YInst Look. repeat (f1; []). apply frm_zput_stake. intros A. allw A. unfold okK.
  erewrite no_stake by eassumption. okfresh.
Qed.
#[local] Hint Resolve frm_stake_initialize : frms.
Lemma frm_bond e c k u a : frm (z_stake_bond e c k u a) (fun _ => True).
Proof. unfold z_stake_bond. repeat f1. Qed.
Lemma frm_unbond e c k u a t : frm (z_stake_unbond e c k u a t) (fun _ => True).
Proof. unfold z_stake_unbond. repeat f1. Qed.
Lemma frm_create_flow e c k u a : frm (z_stake_create_flow e c k u a) (fun _ => True).
Proof. unfold z_stake_create_flow. repeat f1. Qed.
Lemma frm_stake_distribute e c k u a t : frm (z_stake_distribute e c k u a t) (fun _ => True).
Proof. unfold z_stake_distribute. repeat f1. Qed.
Lemma frm_pay_rewards e k u s t b l : frm (z_pay_rewards e k u s t b l) (fun _ => True).
Proof. induction l as [|a tl IH]; cbn [z_pay_rewards]; [apply frm_ret; exact I|]. f1. f1. f1. apply IH. Qed.
#[local] Hint Resolve frm_pay_rewards : frms.
Lemma frm_withdraw_rewards e k u : frm (z_stake_withdraw_rewards e k u) (fun _ => True).
Proof. unfold z_stake_withdraw_rewards. repeat f1. Qed.
#[local] Hint Resolve frm_bond frm_unbond frm_create_flow frm_stake_distribute frm_withdraw_rewards : frms.

(** *** pool *)
Lemma frm_deploy_share e c a b d : frm (z_deploy_share e c a b d) (fun _ => True).
Proof. unfold z_deploy_share. repeat f1. Qed.
Lemma frm_deploy_stake_of e c a s mb mr m o mc : frm (z_deploy_stake_of e c a s mb mr m o mc) (fun _ => True).
Proof.
  unfold z_deploy_stake_of. cbv zeta. eapply frm_bind; [solve [lgz] | intros ?; solve [lgz] | apply frm_deploys | intros ? _]. repeat f1.
Qed.
#[local] Hint Resolve frm_deploy_share frm_deploy_stake_of : frms.
Lemma frm_pool_initialize e p i f d s m : frm (z_pool_initialize e p i f d s m) (fun _ => True).
Proof.
  unfold z_pool_initialize. aheadw p YInst Look. repeat (f1; []). apply frm_zput_pool. intros A. allw A. unfold okP.
  destruct (fget p (w_pool w0)); [constructor; intros N; exfalso; apply N; assumption | okn].
Qed.
Lemma frm_mint_shares e p to a : frm (z_mint_shares e p to a) (fun _ => True).
Proof. unfold z_mint_shares. repeat f1. Qed.
Lemma frm_burn_shares e p a : frm (z_burn_shares e p a) (fun _ => True).
Proof. unfold z_burn_shares. repeat f1. Qed.
#[local] Hint Resolve frm_pool_initialize frm_mint_shares frm_burn_shares : frms.
Lemma frm_new_share_total e c a b x y p : frm (z_new_share_total e c a b x y p) (fun _ => True).
Proof. unfold z_new_share_total. repeat f1. Qed.
#[local] Hint Resolve frm_new_share_total : frms.
Lemma frm_pool_provide e c p u da ma db mb cu dl : frm (z_pool_provide e c p u da ma db mb cu dl) (fun _ => True).
Proof. unfold z_pool_provide. repeat f1. Qed.
Lemma frm_do_swap e p u o a mi ms mf : frm (z_do_swap e p u o a mi ms mf) (fun _ => True).
Proof. unfold z_do_swap. repeat f1. Qed.
#[local] Hint Resolve frm_pool_provide frm_do_swap : frms.
Lemma frm_pool_swap e c p u o a mi ms dl mf : frm (z_pool_swap e c p u o a mi ms dl mf) (fun _ => True).
Proof. unfold z_pool_swap. repeat f1. Qed.
Lemma frm_pool_withdraw e c p u s a b dl : frm (z_pool_withdraw e c p u s a b dl) (fun _ => True).
Proof. unfold z_pool_withdraw. repeat f1. Qed.
#[local] Hint Resolve frm_pool_swap frm_pool_withdraw : frms.

(** *** pool_stable *)
Lemma frm_stable_initialize e p i f a m : frm (z_stable_initialize e p i f a m) (fun _ => True).
Proof. unfold z_stable_initialize. aheadw p YInst Look. repeat f1. Qed.
Lemma frm_stable_mint_shares e p to a : W p YInst -> frm (z_stable_mint_shares e p to a) (fun _ => True).
Proof. intros H. unfold z_stable_mint_shares. repeat f1. Qed.
Lemma frm_stable_burn_shares e p a : W p YInst -> frm (z_stable_burn_shares e p a) (fun _ => True).
Proof. intros H. unfold z_stable_burn_shares. repeat f1. Qed.
#[local] Hint Resolve frm_stable_initialize frm_stable_mint_shares frm_stable_burn_shares : frms.
Lemma frm_stable_provide e c p u da db cu dl ms : frm (z_stable_provide e c p u da db cu dl ms) (fun _ => True).
Proof. unfold z_stable_provide. repeat f1. Qed.
Lemma frm_stable_do_swap e p u o a mi ms mf : W p YInst -> frm (z_stable_do_swap e p u o a mi ms mf) (fun _ => True).
Proof. intros H. unfold z_stable_do_swap. repeat f1. Qed.
#[local] Hint Resolve frm_stable_provide frm_stable_do_swap : frms.
Lemma frm_stable_swap e c p u o a mi ms dl mf : frm (z_stable_swap e c p u o a mi ms dl mf) (fun _ => True).
Proof. unfold z_stable_swap. repeat f1. Qed.
Lemma frm_stable_withdraw e c p u s a b dl : frm (z_stable_withdraw e c p u s a b dl) (fun _ => True).
Proof. unfold z_stable_withdraw. repeat f1. Qed.
#[local] Hint Resolve frm_stable_swap frm_stable_withdraw : frms.
Lemma frm_stable_config p u a1 a2 a3 a4 a5 : frm (z_stable_update_config p u a1 a2 a3 a4 a5) (fun _ => True).
Proof.
  unfold z_stable_update_config. aheadw p YInst Look. eapply frm_bind; [solve [lgz] | intros ?; solve [lgz] | | intros ? _; repeat f1].
  instantiate (1 := fun _ => True). apply frm_tf. intros w r w' J X.
  unfold stable_update_config, enter, is_code, mget, mbind, mguard in X.
  destruct (match fget p (w_code w) with Some k' => kind_eqb KStable k' | None => false end); [|discriminate]. cbn in X.
  destruct (get_stable p w) as [[q wq]|] eqn:G; [|discriminate]. destruct (u =? l_admin q); [|discriminate].
  destruct (vbps_o a2 && vbps_o a4 && vbps_o a5); [|discriminate].
  destruct (frm_get_stable p Wy w [] q wq [] J) as [OL Jq]; [unfold tf; cbn; rewrite G; reflexivity | intros x [] |].
  match type of X with put_stable _ ?x _ = _ => apply (frm_put_stable p x OL wq [] r w' [] Jq); [unfold tf; cbn; rewrite X; reflexivity | intros y []] end.
Qed.
#[local] Hint Resolve frm_stable_config : frms.

(** *** stake_rewards *)
Lemma frm_rewards_initialize k a s t mc mr mb : frm (z_rewards_initialize k a s t mc mr mb) (fun _ => True).
Proof.
  unfold z_rewards_initialize. aheadw k YInst Look. repeat (f1; []). apply frm_zput_rewards. intros A B. allw A. allw B. unfold okR.
  erewrite no_rewards by eassumption. okfresh.
Qed.
Lemma frm_update_rewards c r u p0 p1 : okR c r -> frm (z_update_rewards c r u p0 p1) (fun _ => True).
Proof.
  intros R. unfold z_update_rewards, update_rewards. destruct (p0 =? p1).
  - f1. inversion Q; subst. repeat f1.
  - f1. f1. assert (V : W c (YAdj u) -> okR c a).
    { intros V. apply rbind_ok in Q as (d & _ & Q). destruct (r_adj_of r u) as [corr wd]. apply rbind_ok in Q as (sp & _ & Q). apply rbind_ok in Q as (mm & _ & Q).
      apply rbind_ok in Q as (co & _ & Q). inversion Q; subst. okgoal. }
    eapply frm_post; [apply frm_zput_rewards; intros A B; allw B; apply V; assumption | auto].
Qed.
#[local] Hint Resolve frm_rewards_initialize frm_update_rewards : frms.
Lemma frm_rewards_add_user e c k u b : frm (z_rewards_add_user e c k u b) (fun _ => True).
Proof. unfold z_rewards_add_user. repeat f1. Qed.
Lemma frm_rewards_bond e c k u b : frm (z_rewards_bond e c k u b) (fun _ => True).
Proof. unfold z_rewards_bond. repeat f1. Qed.
Lemma frm_rewards_withdraw e c k u b : frm (z_rewards_withdraw e c k u b) (fun _ => True).
Proof. unfold z_rewards_withdraw. repeat f1. Qed.
#[local] Hint Resolve frm_rewards_add_user frm_rewards_bond frm_rewards_withdraw : frms.
Lemma frm_rewards_query k u b : frm (tf (rewards_query k u b)) (fun _ => True).
Proof.
  apply frm_read. intros w r w' X. unfold rewards_query, enter, is_code, mget, mbind, mguard, get_rewards, now, mgets, mlift in X.
  destruct (match fget k (w_code w) with Some k' => kind_eqb KRewards k' | None => false end); [|discriminate]. cbn in X.
  destruct (fget k (w_rewards w)) as [r0|]; [|discriminate]. destruct (reward_now r0 (w_now w) u b) as [z|]; [|discriminate]. destruct (i2u z); [|discriminate]. inversion X; auto.
Qed.
#[local] Hint Resolve frm_rewards_query : frms.
Lemma frm_rewards_unbond e c k u b x : frm (z_rewards_unbond e c k u b x) (fun _ => True).
Proof.
  unfold z_rewards_unbond. repeat (f1; []).
  match goal with |- frm (mbind (if ?t then _ else _) _) _ => eapply (frm_bind _ _ (fun _ => True)); [solve [lgz] | intros ?; solve [lgz] | destruct t; [apply frm_ret; exact I | apply frm_rewards_withdraw] | intros ? _] end.
  repeat f1.
Qed.
Lemma frm_rewards_distribute e c k t : frm (z_rewards_distribute e c k t) (fun _ => True).
Proof. unfold z_rewards_distribute. repeat f1. Qed.
Lemma frm_rewards_fund e c k s d a : frm (z_rewards_fund e c k s d a) (fun _ => True).
Proof. unfold z_rewards_fund. repeat f1. Qed.
#[local] Hint Resolve frm_rewards_unbond frm_rewards_distribute frm_rewards_fund : frms.

(** *** vesting *)
Lemma ok_saved c u x v : W c (YVest u (free_index v u)) -> okV c v -> okV c (save_vesting u x v).
Proof.
  intros H OK. unfold okV in *. destruct (fget c (w_vest w0)) as [q|]; [|destruct OK as [OK N]; split; auto];
    (constructor; [exact (vr_inst _ _ _ _ OK) | exact (vr_admin _ _ _ _ OK) |]; intros a i V; rewrite v_entries_saved;
     destruct (a =? u) eqn:Ea; [|apply (vr_ent _ _ _ _ OK _ _ V)]; apply Z.eqb_eq in Ea; subst a; rewrite fget_set;
     destruct (i =? free_index v u) eqn:Ei; [|apply (vr_ent _ _ _ _ OK _ _ V)]; apply Z.eqb_eq in Ei; subst i; exfalso).
  - exact (V H).
  - destruct V as [V _]. exact (V H).
Qed.
Lemma ok_create c l : forall v tot v' t, okV c v -> allW c (created v l) -> create_all v l tot = Ok (v', t) -> okV c v'.
Proof.
  induction l as [|[u k] tl IH]; intros v tot v' t OK A X; [inversion X; subst; exact OK|].
  cbn [created allW] in A. destruct A as [A1 A2]. rewrite create_all_cons in X. unfold saved in *. unfold rbind in X.
  destruct (validate_schedule k) as [amt|]; [|discriminate]. destruct (guard _ _); [|discriminate]. destruct (add_u tot amt) as [tot'|]; [|discriminate].
  refine (IH _ _ _ _ _ A2 X). apply ok_saved; assumption.
Qed.
Lemma frm_vest_initialize k a t mc m : frm (z_vest_initialize k a t mc m) (fun _ => True).
Proof.
  unfold z_vest_initialize. aheadw k YInst Look. repeat (f1; []). apply frm_zput_vest. intros A. allw A. unfold okV.
  erewrite no_vest by eassumption. okfresh.
Qed.
Lemma frm_vest_create e c k l : frm (z_vest_create e c k l) (fun _ => True).
Proof.
  unfold z_vest_create. do 8 f1.
  match goal with |- frm (mbind (mlift (create_all ?x _ _)) _) _ => set (v1 := x) in * end.
  eapply frm_bind; [solve [lgz] | intros [? ?]; solve [lgz] | apply frm_lift | intros [v' tot] X]. cbn beta iota.
  f1. f1. f1. eapply frm_bind; [solve [lgz] | intros ?; solve [lgz] | apply frm_note | intros ? _].
  eapply frm_bind; [solve [lgz] | intros ?; solve [lgz] | apply frm_zput_vest | intros ? _; f1].
  intros A. apply (ok_create k l v1 0 v' tot); assumption.
Qed.
Lemma ok_v_put c v u i x : W c (YVest u i) -> okV c v -> okV c (v_put v u i x).
Proof.
  intros H OK. assert (E : forall a, v_entries (v_put v u i x) a = if a =? u then fset i x (v_entries v u) else v_entries v a).
  { intros a. unfold v_put, v_entries at 1. cbn. rewrite fgetd_set. destruct (a =? u); reflexivity. }
  unfold okV in *. destruct (fget c (w_vest w0)) as [q|]; [|destruct OK as [OK N]; split; auto];
    (constructor; [exact (vr_inst _ _ _ _ OK) | exact (vr_admin _ _ _ _ OK) |]; intros a j V; rewrite E;
     destruct (a =? u) eqn:Ea; [|apply (vr_ent _ _ _ _ OK _ _ V)]; apply Z.eqb_eq in Ea; subst a; rewrite fget_set;
     destruct (j =? i) eqn:Ei; [|apply (vr_ent _ _ _ _ OK _ _ V)]; apply Z.eqb_eq in Ei; subst j; exfalso).
  - exact (V H).
  - destruct V as [V _]. exact (V H).
Qed.
Lemma frm_vest_claim e c k u i : frm (z_vest_claim e c k u i) (fun _ => True).
Proof.
  unfold z_vest_claim. do 15 f1. eapply frm_bind; [solve [lgz] | intros ?; solve [lgz] | apply frm_zput_vest | intros ? _; f1].
  intros A. allw A. apply ok_v_put; assumption.
Qed.
Lemma frm_vest_burn e c k u a : frm (z_vest_burn e c k u a) (fun _ => True).
Proof. unfold z_vest_burn. repeat f1. Qed.
Lemma frm_vest_mint e c k u a : frm (z_vest_mint e c k u a) (fun _ => True).
Proof. unfold z_vest_mint. repeat f1. Qed.
Lemma frm_vest_minter e c k u n : frm (z_vest_update_minter e c k u n) (fun _ => True).
Proof.
  unfold z_vest_update_minter. do 5 f1.
  match goal with |- context [v_minter ?v] => destruct (v_minter v) as [[m cap]|] eqn:? end.
  - eapply frm_bind; [solve [lgz] | intros ?; solve [lgz] | apply (frm_ret tt (fun _ => True)); exact I | intros ? _; repeat f1].
  - repeat f1.
Qed.
Lemma frm_vest_capacity e c k u n : frm (z_vest_update_capacity e c k u n) (fun _ => True).
Proof. unfold z_vest_update_capacity. repeat f1. Qed.
#[local] Hint Resolve frm_vest_initialize frm_vest_create frm_vest_claim frm_vest_burn frm_vest_mint frm_vest_minter frm_vest_capacity : frms.

(** *** factory, router, trader *)
Lemma frm_hop_initialize h a f : frm (z_hop_initialize h a f) (fun _ => True).
Proof. unfold z_hop_initialize. repeat f1. Qed.
#[local] Hint Resolve frm_hop_initialize : frms.
Lemma frm_fact_initialize e f a lp sb sk tk wl d : frm (z_fact_initialize e f a lp sb sk tk wl d) (fun _ => True).
Proof.
  unfold z_fact_initialize. aheadw f YInst Look. do 6 f1. cbv zeta. eapply frm_bind; [solve [lgz] | intros ?; solve [lgz] | apply frm_deploys | intros ? _].
  f1. apply frm_zput_fact. intros A. allw A. unfold okF. erewrite no_fact by eassumption. okfresh.
Qed.
Lemma ok_pair_set c f a b x l : W c YLps -> W c (YPair a b) -> okF c f -> okF c (set_f_reg f l (pair_set f a b x)).
Proof.
  intros H V OK. assert (E : forall p q, pair_get (set_f_reg f l (pair_set f a b x)) p q = if (p =? a) && (q =? b) then Some x else pair_get f p q).
  { intros p q. unfold pair_get, pair_set. cbn. rewrite fgetd_set. destruct (p =? a) eqn:Ea; [|reflexivity]. apply Z.eqb_eq in Ea. subst.
    rewrite fget_set. destruct (q =? b); reflexivity. }
  unfold okF in *. destruct (fget c (w_fact w0)) as [q|]; [|destruct OK as [OK N]; split; auto];
    (constructor; [exact (fr_config _ _ _ _ OK) | intros N1 | exact (fr_stab _ _ _ _ OK) |]; [exfalso|]; [|intros p0 q0 N1; rewrite E;
      destruct ((p0 =? a) && (q0 =? b)) eqn:Eq; [|exact (fr_pair _ _ _ _ OK _ _ N1)]; apply andb_prop in Eq as [E1 E2]; apply Z.eqb_eq in E1, E2; subst; exfalso]);
    try (destruct N1 as [N1 _]); solve [exact (N1 H) | exact (N1 V)].
Qed.
Lemma frm_fact_create e c f u i ty amp ds mf : frm (z_fact_create e c f u i ty amp ds mf) (fun _ => True).
Proof.
  unfold z_fact_create. do 9 f1. cbv zeta. eapply frm_bind; [solve [lgz] | intros ?; solve [lgz] | apply frm_deploys | intros ? _]. f1.
  eapply (frm_bind _ _ (fun _ => True)); [solve [lgz] | intros ?; solve [lgz] | destruct ty; auto with frms | intros ? _].
  eapply frm_bind; [solve [lgz] | intros ?; solve [lgz] | apply frm_zput_fact | intros ? _; f1].
  intros A. allw A. apply ok_pair_set; assumption.
Qed.
Lemma frm_pool_by_pair f a b : frm (z_fact_pool_by_pair f a b) (fun _ => True).
Proof. unfold z_fact_pool_by_pair. repeat f1. Qed.
Lemma frm_any_swap e c p u o a mi ms dl mf : frm (z_any_swap e c p u o a mi ms dl mf) (fun _ => True).
Proof. unfold z_any_swap. repeat f1. Qed.
#[local] Hint Resolve frm_fact_initialize frm_fact_create frm_pool_by_pair frm_any_swap : frms.
Lemma frm_hop_swaps e h f u ms dl mf ops : forall a, frm (z_hop_swaps e h f u ops a ms dl mf) (fun _ => True).
Proof. induction ops as [|o tl IH]; intros a; cbn [z_hop_swaps]; [apply frm_ret; exact I|]. do 2 f1. apply IH. Qed.
#[local] Hint Resolve frm_hop_swaps : frms.
Lemma frm_hop_swap e c h u ops ms a dl mf : frm (z_hop_swap e c h u ops ms a dl mf) (fun _ => True).
Proof. unfold z_hop_swap. repeat f1. Qed.
Lemma frm_trader_initialize e c d a x y o : frm (z_trader_initialize e c d a x y o) (fun _ => True).
Proof. unfold z_trader_initialize. repeat f1. Qed.
Lemma frm_trader_trade e c d u t p a ms dl mi mf : frm (z_trader_trade e c d u t p a ms dl mi mf) (fun _ => True).
Proof.
  unfold z_trader_trade. repeat (f1; []).
  eapply (frm_bind _ _ (fun _ => True)); [solve [lgz] | intros ?; solve [lgz] | destruct a; [apply frm_ret; exact I | apply frm_balance] | intros ? _; f1].
Qed.
Lemma frm_trader_transfer e c d u r a t : frm (z_trader_transfer e c d u r a t) (fun _ => True).
Proof. unfold z_trader_transfer. repeat f1. Qed.
#[local] Hint Resolve frm_hop_swap frm_trader_initialize frm_trader_trade frm_trader_transfer : frms.

(** *** settings *)
Lemma frm_pool_config e c p a1 a2 a3 a4 a5 a6 : frm (z_pool_update_config e c p a1 a2 a3 a4 a5 a6) (fun _ => True).
Proof. unfold z_pool_update_config. destruct a1; repeat f1. Qed.
Lemma frm_pool_update e c p h : frm (z_pool_update e c p h) (fun _ => True).
Proof. unfold z_pool_update. repeat f1. Qed.
Lemma frm_pool_upgrade e c p h d : frm (z_pool_upgrade e c p h d) (fun _ => True).
Proof. unfold z_pool_upgrade. repeat f1. Qed.
Lemma frm_stable_upgrade e c p h : frm (z_stable_upgrade e c p h) (fun _ => True).
Proof. unfold z_stable_upgrade. repeat f1. Qed.
Lemma frm_stake_update e c p h : frm (z_stake_update e c p h) (fun _ => True).
Proof. unfold z_stake_update. repeat f1. Qed.
Lemma frm_rewards_update e c p h : frm (z_rewards_update e c p h) (fun _ => True).
Proof. unfold z_rewards_update. repeat f1. Qed.
Lemma frm_vest_update e c p h : frm (z_vest_update e c p h) (fun _ => True).
Proof. unfold z_vest_update. repeat f1. Qed.
Lemma frm_fact_whitelist e c f u a r : frm (z_fact_update_whitelist e c f u a r) (fun _ => True).
Proof. unfold z_fact_update_whitelist. repeat f1. Qed.
Lemma frm_fact_hashes e c f a b d : frm (z_fact_update_hashes e c f a b d) (fun _ => True).
Proof. unfold z_fact_update_hashes. repeat f1. Qed.
Lemma frm_fact_update e c f h s : frm (z_fact_update e c f h s) (fun _ => True).
Proof. unfold z_fact_update. repeat f1. Qed.
Lemma frm_hop_update e c h x : frm (z_hop_update e c h x) (fun _ => True).
Proof. unfold z_hop_update. repeat f1. Qed.

Lemma frm_drop {A} (m : TST A) : grow m -> frm m (fun _ => True) -> frm (z_drop m) (fun _ => True).
Proof. intros G S. unfold z_drop. eapply frm_bind; [exact G | intros ?; solve [lgz] | exact S | intros ? _; apply frm_ret; exact I]. Qed.
Lemma frm_zdeploy c k : frm (z_deploy c k) (fun _ => True).
Proof. eapply frm_post; [apply frm_deploys | auto]. Qed.
Lemma frm_zexec e k : frm (zexec e k) (fun _ => True).
Proof.
  destruct k; unfold zexec; try (apply frm_drop; [solve [lgz] |]); try (destruct k); auto using frm_pool_config, frm_pool_update, frm_pool_upgrade,
    frm_stable_upgrade, frm_stake_update, frm_rewards_update, frm_vest_update, frm_fact_whitelist, frm_fact_hashes, frm_fact_update,
    frm_hop_update, frm_fail, frm_zdeploy with frms.
Qed.
End Frame.
