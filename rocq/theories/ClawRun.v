(** The drifted invariants hold in every run with clawbacks, the drift being what was clawed back. *)
From Coq Require Import ZArith List Bool Lia.
From Coq Require Import ZifyBool.
From Verif Require Import Base FMap Decimal Curve World Token TokenProofs Frame Stake Pool PoolProofs
  Stable StableProofs Rewards Vest Factory Router System SysFrame SysInv SysPool SysStable SysVest SysRewards SysStake
  Claw ClawPool ClawStable ClawVest ClawRewards ClawStake.
Import ListNotations.
Open Scope Z_scope.

Lemma claw_ok e t from amt w u w' : tok_clawback e t from amt w = Ok (u, w') ->
  exists a, tadmin w t = Some a /\ a < 0 /\ signs e a = true /\ tok_burn e (Some from) t from amt w = Ok (tt, w').
Proof.
  unfold tok_clawback. intros X.
  apply mbind_ok in X. destruct X as [k [w1 [G X]]]. apply get_tok_ok in G. destruct G as [Ek ->].
  apply mbind_ok in X. destruct X as [? [? [G X]]]. apply mguard_ok in G. destruct G as [La E]. inversion E; subst; clear E.
  apply mbind_ok in X. destruct X as [? [? [G X]]]. apply require_auth_ok in G. destruct G as [Au ->].
  exists (t_admin k). split; [unfold tadmin; rewrite Ek; reflexivity|]. split; [lia|]. split; [unfold authed in Au; rewrite orb_false_r in Au; exact Au|].
  destruct u. unfold tok_burn. unfold mbind at 1. unfold require_auth, mguard, authed. simpl.
  rewrite Z.eqb_refl. rewrite orb_true_r. exact X.
Qed.

Lemma claw_burned e t from amt w u w' : tok_clawback e t from amt w = Ok (u, w') -> Burned t from amt w w'.
Proof. intros X. apply claw_ok in X. destruct X as [a [_ [_ [_ X]]]]. apply tok_burn_burned in X. tauto. Qed.

Lemma claw_wgood e t from amt w u w' : tok_clawback e t from amt w = Ok (u, w') -> WGood w -> WGood w'.
Proof.
  intros X [G N S]. pose proof (claw_burned _ _ _ _ _ _ _ X) as B.
  apply claw_ok in X. destruct X as [a [_ [_ [_ X]]]]. apply tok_burn_ok in X. destruct X as [_ [P [k [U L]]]].
  pose proof (proj1 U) as E.
  assert (Ew := bn_rest _ _ _ _ _ B).
  constructor; [|rewrite Ew; exact N|rewrite Ew; exact S].
  destruct U as [_ ->]. constructor; simpl; try apply G.
  - intros x kx Hx. rewrite fget_set in Hx. destruct (Z.eqb_spec x t).
    + inversion Hx; subst. apply burn_good; auto. apply (gd_tok _ G _ _ E).
    + apply (gd_tok _ G _ _ Hx).
  - intros c x Hx. rewrite fget_set in Hx. destruct (Z.eqb_spec c t).
    + subst. apply (gd_ctok _ G _ _ E).
    + apply (gd_ctok _ G _ _ Hx).
Qed.

Lemma cstep_wgood H w ev w' : cstep H w ev w' -> WGood w -> WGood w'.
Proof. intros S G. destruct S; [eapply WGood_step; eauto|eapply claw_wgood; eauto]. Qed.
Lemma crun_wgood H w l w' : crun H w l w' -> WGood w -> WGood w'.
Proof. induction 1; auto. intros G. apply IHcrun. eapply cstep_wgood; eauto. Qed.

Lemma taken_pos H w ev w' : cstep H w ev w' -> forall t c, 0 <= taken ev t c.
Proof.
  intros S t c. destruct S; simpl; [lia|].
  match goal with X : tok_clawback _ _ _ _ _ = _ |- _ => apply claw_burned in X; pose proof (bn_pos _ _ _ _ _ X) end.
  destruct (_ && _); lia.
Qed.
Lemma clawed_pos H w l w' : crun H w l w' -> forall t c, 0 <= clawed l t c.
Proof. induction 1; simpl; intros; [lia|]. pose proof (taken_pos _ _ _ _ H0 t c). specialize (IHcrun t c). lia. Qed.

(** all five invariants with drift [d] *)
Record Drifted (d : Addr -> Addr -> Z) (w : World) : Prop := {
  df_pool : AllPoolD d w;
  df_stable : AllStableD d w;
  df_vest : AllVestD d w;
  df_rewards : AllRewardsD d w;
  df_stake : AllStakeD d w }.

Lemma drifted_step H d w ev w' : step H w ev w' -> WGood w -> (forall t c, 0 <= d t c) -> Drifted d w -> Drifted d w'.
Proof.
  intros S [G N Q] P [D1 D2 D3 D4 D5]. destruct S as [e k w' Eh X|n s Hn Hs].
  - constructor.
    + eapply pool_all_stepD; eauto.
    + eapply stable_all_stepD; eauto.
    + eapply vest_all_stepD; eauto; lia.
    + eapply rewards_all_stepD; eauto.
    + eapply stake_all_stepD; eauto; lia.
  - constructor.
    + apply pool_timeD; auto.
    + apply stable_timeD; auto; lia.
    + apply vest_timeD; auto; lia.
    + intros c x Hx. apply D4 in Hx. eapply RewardsD_same; [exact Hx|apply Z.le_refl].
    + apply stake_timeD; auto; lia.
Qed.

Lemma drifted_claw d d' e t from amt w w' : tok_clawback e t from amt w = Ok (tt, w') -> WGood w ->
  (forall t' c, d' t' c = d t' c + taken (Clawback e t from amt) t' c) -> Drifted d w -> Drifted d' w'.
Proof.
  intros X [G N Q] Ed [D1 D2 D3 D4 D5].
  pose proof (claw_burned _ _ _ _ _ _ _ X) as B. apply claw_ok in X. destruct X as [a [Ta [La [_ _]]]].
  assert (Ew := bn_rest _ _ _ _ _ B). pose proof (bn_pos _ _ _ _ _ B) as Pa.
  assert (Hb : forall x c, bal w' x c + d' x c = bal w x c + d x c).
  { intros x c. rewrite Ed, (bn_bal _ _ _ _ _ B). unfold taken, ind. destruct (_ && _); lia. }
  assert (Hs : forall x c kd, tadmin w x = Some c -> fget c (w_code w) = Some kd ->
    tadmin w' x = Some c /\ supply w' x = supply w x /\ forall y, bal w' x y = bal w x y).
  { intros x c kd Tx Kc. pose proof (gd_pos _ G _ _ Kc).
    destruct (Z.eqb_spec x t) as [->|Ne]; [rewrite Ta in Tx; inversion Tx; lia|].
    split; [rewrite (bn_adm _ _ _ _ _ B); exact Tx|]. split; [rewrite (bn_sup _ _ _ _ _ B)|intros y; rewrite (bn_bal _ _ _ _ _ B)];
      destruct (Z.eqb_spec x t); try congruence; simpl; lia. }
  assert (Hn : w_now w' = w_now w) by (rewrite Ew; reflexivity).
  assert (Hd : forall x, tdec w' x = tdec w x) by (apply (bn_dec _ _ _ _ _ B)).
  constructor; intros c x Hx.
  - assert (Hx0 : fget c (w_pool w) = Some x) by (rewrite Ew in Hx; exact Hx).
    pose proof (D1 _ _ Hx0) as I. pose proof (gd_cpool _ G _ _ Hx0) as K.
    destruct (Hs _ _ _ (pz_adm _ _ _ _ I) K) as [S1 [S2 S3]]. 
    pose proof (Hb (p_ta x) c). pose proof (Hb (p_tb x) c).
    destruct I. constructor; auto; rewrite ?S2, ?S3; auto; lia.
  - assert (Hx0 : fget c (w_stable w) = Some x) by (rewrite Ew in Hx; exact Hx).
    pose proof (D2 _ _ Hx0) as I. pose proof (gd_cstable _ G _ _ Hx0) as K.
    destruct (Hs _ _ _ (lz_adm _ _ _ _ I) K) as [S1 [S2 S3]]. 
    pose proof (Hb (l_ta x) c). pose proof (Hb (l_tb x) c).
    destruct I. constructor; auto; rewrite ?S2, ?S3, ?Hn, ?Hd; auto; lia.
  - assert (Hx0 : fget c (w_vest w) = Some x) by (rewrite Ew in Hx; exact Hx).
    pose proof (D3 _ _ Hx0) as I. pose proof (Hb (v_token x) c).
    destruct I. constructor; auto; rewrite ?Hn; auto; lia.
  - assert (Hx0 : fget c (w_rewards w) = Some x) by (rewrite Ew in Hx; exact Hx).
    pose proof (D4 _ _ Hx0) as I. pose proof (Hb (r_token x) c).
    destruct I. constructor; auto; lia.
  - assert (Hx0 : fget c (w_stake w) = Some x) by (rewrite Ew in Hx; exact Hx).
    pose proof (D5 _ _ Hx0) as I. pose proof (Hb (s_lp x) c).
    destruct I. constructor; rewrite ?Hn; auto. intros NI. specialize (sz_lp NI). lia.
Qed.

Lemma drifted_ext d d' w : (forall t c, d' t c = d t c) -> Drifted d w -> Drifted d' w.
Proof.
  intros E [D1 D2 D3 D4 D5]. constructor; intros c x Hx.
  - specialize (D1 _ _ Hx). destruct D1. constructor; auto; rewrite E; auto.
  - specialize (D2 _ _ Hx). destruct D2. constructor; auto; rewrite E; auto.
  - specialize (D3 _ _ Hx). destruct D3. constructor; auto; rewrite E; auto.
  - specialize (D4 _ _ Hx). destruct D4. constructor; auto; rewrite E; auto.
  - specialize (D5 _ _ Hx). destruct D5. constructor; auto; rewrite E; auto.
Qed.

Lemma drifted_run H w l w' : crun H w l w' -> forall d d', WGood w -> (forall t c, 0 <= d t c) ->
  (forall t c, d' t c = d t c + clawed l t c) -> Drifted d w -> Drifted d' w'.
Proof.
  induction 1 as [w|w ev w1 l w2 S R IH]; intros d d' G P E D.
  - eapply drifted_ext; [|exact D]. intros. rewrite E. simpl. lia.
  - apply (IH (fun t c => d t c + taken ev t c)).
    + eapply cstep_wgood; eauto.
    + intros. pose proof (P t c). pose proof (taken_pos _ _ _ _ S t c). lia.
    + intros. rewrite E. simpl. lia.
    + destruct S as [ev w1 S|e t from amt w1 Eh X].
      * eapply drifted_ext; [|eapply drifted_step; eauto]. intros. simpl. lia.
      * eapply drifted_claw; eauto.
Qed.

Lemma drifted_empty : Drifted (fun _ _ => 0) w_empty.
Proof. constructor; intros c x Hx; discriminate. Qed.

Theorem crun_drifted H l w : crun H w_empty l w -> WGood w /\ Drifted (clawed l) w.
Proof.
  intros R. split; [eapply crun_wgood; eauto using WGood_empty|].
  apply (drifted_run _ _ _ _ R (fun _ _ => 0)); auto using WGood_empty, drifted_empty; intros; lia.
Qed.
