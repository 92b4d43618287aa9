(** The stable-pool invariant holds for every stable pool in every reachable ledger. *)
From Coq Require Import ZArith List Bool Lia.
From Coq Require Import ZifyBool.
From Verif Require Import Base FMap Decimal DecimalProofs Curve World Token TokenProofs Frame Stake Pool PoolProofs
  Stable StableProofs Rewards Vest Factory Router System SysFrame SysInv SysPool.
Import ListNotations.
Open Scope Z_scope.

Definition AllStable : World -> Prop := AllI w_stable StableInv.

Lemma stable_swap_ok e c self sender o a mi ms dl mf w r w' :
  stable_swap e c self sender o a mi ms dl mf w = Ok (r, w') ->
  fget self (w_code w) = Some KStable /\ authed e c sender = true /\ 0 < a /\
  (forall d, dl = Some d -> w_now w <= d) /\
  stable_do_swap e self sender o a mi ms mf w = Ok (r, w').
Proof.
  unfold stable_swap. intros H. apply mbind_ok in H. destruct H as [? [? [H1 H]]]. winv.
  apply mbind_ok in H. destruct H as [? [? [H2 H]]]. winv.
  apply mbind_ok in H. destruct H as [? [? [H3 H]]]. apply mguard_ok in H3. destruct H3 as [H3 E3]. inversion E3; subst.
  apply mbind_ok in H. destruct H as [? [? [H4 H]]]. winv. simpl in H3.
  split; [auto|]. split; [auto|]. split; [lia|]. split; auto.
Qed.

Lemma stable_swap_inv e c self sender o a mi ms dl mf w r w' p :
  stable_swap e c self sender o a mi ms dl mf w = Ok (r, w') -> Good w -> c <> Some self ->
  fget self (w_stable w) = Some p -> StableInv w self p ->
  exists p', fget self (w_stable w') = Some p' /\ StableInv w' self p'.
Proof.
  intros H G N Ep I. apply stable_swap_ok in H. destruct H as [C [A [Pa [_ H]]]].
  pose proof (authed_ne _ _ _ _ _ _ G C N A) as Ns.
  apply stable_do_swap_ok in H; auto. destruct H as [p0 [am [sp [cm [ny [w1 [w2 [w3 E]]]]]]]].
  pose proof (ls_pool _ _ _ _ _ _ _ _ _ _ _ _ _ _ _ _ _ _ _ E) as Ep0. rewrite Ep in Ep0. inversion Ep0; subst p0.
  eapply lswap_inv; eauto.
Qed.

Lemma stable_initialize_inv e self i f am mf w u w' :
  stable_initialize e self i f am mf w = Ok (u, w') -> Good w ->
  exists p, fget self (w_stable w') = Some p /\ StableInv w' self p.
Proof.
  intros H G. apply stable_initialize_ok in H.
  destruct H as [C [Np [V [Lf [A0 [A1 [A2 [pa [pb [Da [Db [NP E]]]]]]]]]]]].
  cbv zeta in E. subst w'. eexists. split; [simpl; apply fget_set_same|].
  assert (NT : fget (e_hash e self (SPair (i_ta i) (i_tb i))) (w_tok w) = None).
  { destruct (fget _ (w_tok w)) eqn:Et; auto. apply (gd_ctok _ G) in Et. rewrite (np_share _ _ _ _ _ _ NP) in Et. discriminate. }
  set (dd := if pb <? pa then pa else pb) in *.
  assert (HB : forall t a, 0 <= bal (with_children (e_hash e) self i f dd w) t a).
  { intros t a. unfold bal; simpl. rewrite fget_set. destruct (t =? _).
    - unfold tk_balance, fgetd; simpl. lia.
    - apply (good_bal w t a G). }
  assert (Rd : forall t d, tdec w t = Some d -> 0 <= d <= 18).
  { intros t d Hd. unfold tdec in Hd. destruct (fget t (w_tok w)) eqn:Et; inversion Hd; subst.
    apply (tg_dec _ (gd_tok _ G _ _ Et)). }
  destruct NP as [N1 N2 N3 N4 N5 N6 N7 N8 N9 N10 N11]. unfold AMP_PRECISION, MAX_AMP in *.
  constructor; simpl; auto; try lia.
  - unfold tadmin; simpl. rewrite fget_set_same. reflexivity.
  - split; [lia|]. apply HB.
  - split; [lia|]. apply HB.
  - unfold supply; simpl. rewrite fget_set_same. unfold tk_supply; simpl. lia.
  - unfold tdec in *; simpl. rewrite !fget_set_other by auto.
    split; [auto|]. split; [auto|]. split; [unfold dd; destruct (Z.ltb_spec pb pa); lia|]. split; eauto.
  - unfold I128_MAX; lia.
Qed.

Lemma stable_same_tokens w w' c p p' : w_tok w' = w_tok w -> w_now w <= w_now w' -> StableInv w c p ->
  l_ta p' = l_ta p -> l_tb p' = l_tb p -> l_share p' = l_share p -> l_total p' = l_total p ->
  l_ra p' = l_ra p -> l_rb p' = l_rb p ->
  l_iamp p' = l_iamp p -> l_namp p' = l_namp p -> l_iampt p' = l_iampt p -> l_nampt p' = l_nampt p ->
  l_prec p' = l_prec p -> l_preca p' = l_preca p -> l_precb p' = l_precb p ->
  vbps (l_fee p') && vbps (l_maxslip p') && vbps (l_maxspread p') = true ->
  StableInv w' c p'.
Proof.
  intros E Nw I E1 E2 E3 E4 E5 E6 E7 E8 E9 E10 E11 E12 E13 V. destruct I as [I1 I2 I3 I4 I5 I6 I7 I8 I9 I10 I11 I12 I13].
  constructor; rewrite ?(bal_wtok w w'), ?(supply_wtok w w'), ?(tadmin_wtok w w') by auto;
    rewrite ?E1, ?E2, ?E3, ?E4, ?E5, ?E6, ?E7, ?E8, ?E9, ?E10, ?E11, ?E12, ?E13; auto; try lia.
  unfold tdec in *. rewrite E. auto.
Qed.

Lemma stable_config_inv self s a1 a2 a3 a4 a5 w u w' p :
  stable_update_config self s a1 a2 a3 a4 a5 w = Ok (u, w') ->
  fget self (w_stable w) = Some p -> StableInv w self p ->
  exists p', fget self (w_stable w') = Some p' /\ StableInv w' self p'.
Proof.
  unfold stable_update_config. intros H Ep I. rstep H. winv.
  match goal with R : fget self (w_stable w) = Some ?q |- _ => rewrite Ep in R; inversion R; subst q end.
  eexists. split; [simpl; apply fget_set_same|].
  eapply stable_same_tokens; [| |exact I|..]; simpl; auto; try lia.
  pose proof (li_bps _ _ _ I). unfold vbps_o, opt_or in *. destruct a2, a4, a5; lia.
Qed.

Lemma hI_stable w w' c p : UT c w w' -> Ext w w' -> fget c (w_code w) = Some KStable -> StableInv w c p -> StableInv w' c p.
Proof. intros U X _ I. eapply StableInv_UT; eauto. Qed.

Lemma any_swap_stables e c p u o a mi ms dl mf w r w' :
  any_swap e c p u o a mi ms dl mf w = Ok (r, w') -> Good w -> not_pool w c -> AllStable w -> AllStable w'.
Proof.
  intros H G N A. 
  pose proof (framek_any_swap _ _ _ _ _ _ _ _ _ _ _ _ _ H G) as [G' [X' _]].
  pose proof (sc_any_swap _ _ _ _ _ _ _ _ _ _ _ _ _ H) as Sc. unfold SameCode in Sc.
  unfold any_swap in H. apply mbind_ok in H. destruct H as [w0 [w1 [E H]]].
  apply mget_ok in E. inversion E; subst w0 w1; clear E.
  destruct (fget p (w_code w)) as [[]|] eqn:Ec; try discriminate; intros c' x Hx.
  - pose proof (frame_pool_swap _ _ _ _ _ _ _ _ _ _ _ _ _ H) as F.
    destruct (F G) as [_ [_ [_ [_ [_ U]]]]]; [intros s Es; inversion Es; subst; auto|].
    pose proof (gd_cstable _ G' _ _ Hx) as Hc. rewrite Sc in Hc.
    eapply (kind_keep w_stable KStable StableInv gd_cstable (fun _ _ _ H => ut_stable _ _ _ H) hI_stable w w' c'); eauto; [congruence|].
    intros. eapply U; eauto. congruence.
  - destruct (Z.eq_dec c' p) as [->|Ne].
    + pose proof H as H0. apply stable_swap_ok in H0. destruct H0 as [_ [_ [_ [_ H0]]]].
      unfold stable_do_swap in H0. apply mbind_ok in H0. destruct H0 as [q [? [H0 _]]]. winv.
      eapply stable_swap_inv in H; eauto.
      * destruct H as [p' [E1 E2]]. rewrite Hx in E1. inversion E1; subst. auto.
      * intros ->. destruct (N p eq_refl). contradiction.
    + pose proof (frame_stable_swap _ _ _ _ _ _ _ _ _ _ _ _ _ H) as F.
      destruct (F G) as [_ [_ [_ [_ [_ U]]]]]; [intros s Es; inversion Es; subst; auto|].
      pose proof (gd_cstable _ G' _ _ Hx) as Hc. rewrite Sc in Hc.
      eapply (kind_keep w_stable KStable StableInv gd_cstable (fun _ _ _ H => ut_stable _ _ _ H) hI_stable w w' c'); eauto; [congruence|].
      intros. eapply U; eauto. congruence.
Qed.

Lemma hop_swaps_stables e self f r ops ms dl mf : forall amt w x w',
  hop_swaps e self f r ops amt ms dl mf w = Ok (x, w') -> Good w ->
  fget self (w_code w) = Some KHop -> AllStable w -> AllStable w'.
Proof.
  induction ops as [|o ops IH]; simpl; intros amt w x w' H G C A.
  - rstep H. auto.
  - apply mbind_ok in H. destruct H as [p [w1 [H1 H]]]. apply pure_fact_pool_by_pair in H1. subst w1.
    apply mbind_ok in H. destruct H as [v [w2 [H2 H]]].
    pose proof (framek_any_swap _ _ _ _ _ _ _ _ _ _ _ _ _ H2 G) as [G' [X' _]].
    eapply IH; [exact H|exact G'|apply (ex_code _ _ X'); auto|].
    eapply any_swap_stables; eauto. intros a' E. inversion E; subst. split; congruence.
Qed.

Lemma stable_provide_inv e c self sender da db custom dl mins w u w' p :
  stable_provide e c self sender da db custom dl mins w = Ok (u, w') -> Good w -> c <> Some self ->
  fget self (w_stable w) = Some p -> StableInv w self p ->
  exists p', fget self (w_stable w') = Some p' /\ StableInv w' self p'.
Proof.
  intros H G N Ep I. pose proof (enter_first _ _ _ _ _ _ H) as C.
  assert (Nw : w_now w' = w_now w).
  { eapply (frame_stable_provide _ _ _ _ _ _ _ _ _ _ _ _ H); auto. intros s Es; inversion Es; subst; auto. }
  assert (A : authed e c sender = true) by (unfold stable_provide in H; rstep H; winv; auto).
  pose proof (authed_ne _ _ _ _ _ _ G C N A) as Ns.
  pose proof (fun q => stable_provide_fits _ _ _ _ _ _ _ _ _ _ _ _ q H) as Fit.
  apply stable_provide_ok in H; auto.
  - destruct H as [_ [_ [p0 [am [x [y [nd [s [w1 [w2 [w3 E]]]]]]]]]]].
    pose proof (lp_pool _ _ _ _ _ _ _ _ _ _ _ _ _ _ _ _ _ _ E) as Ep0. rewrite Ep in Ep0. inversion Ep0; subst p0.
    eapply lprovide_inv; eauto.
  - intros q Eq. rewrite Ep in Eq. inversion Eq; subst. pose proof (li_ord _ _ _ I). lia.
Qed.

Lemma stable_withdraw_inv e c self sender share mina minb dl w r w' p :
  stable_withdraw e c self sender share mina minb dl w = Ok (r, w') -> Good w -> c <> Some self ->
  fget self (w_stable w) = Some p -> StableInv w self p ->
  exists p', fget self (w_stable w') = Some p' /\ StableInv w' self p'.
Proof.
  intros H G N Ep I. pose proof (enter_first _ _ _ _ _ _ H) as C. destruct r as [a b].
  assert (Nw : w_now w' = w_now w).
  { eapply (frame_stable_withdraw _ _ _ _ _ _ _ _ _ _ _ H); auto. intros s Es; inversion Es; subst; auto. }
  apply stable_withdraw_ok in H. destruct H as [_ [A [p0 [ratio [w1 [w2 [w3 [w4 E]]]]]]]].
  pose proof (authed_ne _ _ _ _ _ _ G C N A) as Ns.
  pose proof (lw_pool _ _ _ _ _ _ _ _ _ _ _ _ _ _ _ _ E) as Ep0. rewrite Ep in Ep0. inversion Ep0; subst p0.
  eapply lwithdraw_inv; eauto.
Qed.

Lemma stable_all_step e k w w' : exec e k w = Ok (tt, w') -> Good w -> AllStable w -> AllStable w'.
Proof.
  intros H G A.
  assert (OWN : forall c, (exists p', fget c (w_stable w') = Some p' /\ StableInv w' c p') ->
    forall x', fget c (w_stable w') = Some x' -> StableInv w' c x').
  { intros c [p' [E1 E2]] x' Hx. rewrite Hx in E1. inversion E1; subst; auto. }
  destruct (routed k) eqn:R.
  { destruct k; try discriminate R; simpl in H; apply drop_ok in H; destruct H as [r H].
    - unfold hop_swap in H. rstep H. winv. eapply hop_swaps_stables; eauto.
    - apply trader_trade_ok in H. destruct H as [dd [amt [C [_ [_ [_ [_ [_ [_ H]]]]]]]]].
      eapply any_swap_stables; eauto. intros a' E. inversion E; subst. split; congruence. }
  refine (kind_step w_stable KStable StableInv gd_cstable (fun _ _ _ H => ut_stable _ _ _ H) hI_stable e k w w' H G A _ _).
  - intros c [T|[T _]] C; [|congruence]. apply OWN.
    pose proof (exec_tkind _ _ _ _ _ H T) as TK. rewrite C in TK.
    destruct k; simpl in T, TK; inversion T; try discriminate TK; subst; simpl in H; try discriminate R;
      try (apply drop_ok in H; destruct H as [r H]).
    all: try (destruct (fget c (w_stable w)) as [p0|] eqn:Ep;
      [|exfalso; match type of H with ?m = _ => unfold stable_provide, stable_swap, stable_do_swap, stable_withdraw, stable_update_config, stable_upgrade in H end;
        rstep H; winv; congruence]; pose proof (A _ _ Ep) as I).
    + eapply stable_initialize_inv; eauto.
    + eapply stable_provide_inv; eauto; discriminate.
    + eapply stable_swap_inv; eauto; discriminate.
    + eapply stable_withdraw_inv; eauto; discriminate.
    + eapply stable_config_inv; eauto.
    + apply stable_upgrade_ok in H. subst w'. exists p0. split; [exact Ep|]. eapply stable_same_tokens; [| |exact I|..]; simpl; auto; try lia; apply I.
  - intros c x' D G' C Hx.
    assert (NoP : fget c (w_stable w) = None).
    { destruct (fget c (w_stable w)) eqn:E; auto. apply (gd_cstable _ G) in E. congruence. }
    destruct k; try discriminate D; deploy_cases H.
    1-5: subst w'; simpl in Hx; rewrite ?fget_set in Hx; try congruence.
    + destruct (Z.eqb_spec c p); congruence.
    + match goal with Q : match ty with Xyk => _ | StableT => _ end |- _ => rename Q into Hm end.
      subst. rename Hm into H.
      match goal with Q : fget (e_hash e f (SPair (i_ta i) (i_tb i))) (w_code w) = None |- _ => rename Q into Hn end.
      match goal with Q : 0 <= e_hash e f (SPair (i_ta i) (i_tb i)) |- _ => rename Q into Hp end.
      pose proof (Good_newcode _ (kind_of ty) _ Hp Hn G) as G1.
      simpl in Hx.
      destruct ty; simpl in H, G1.
      * apply pool_initialize_ok in H. destruct H as [_ [_ [_ [_ [_ H]]]]]. cbv zeta in H. subst. simpl in Hx. congruence.
      * destruct H as [a [_ H]].
        pose proof (stable_initialize_inv _ _ _ _ _ _ _ _ _ H G1) as [q [E1 E2]].
        apply stable_initialize_ok in H.
        destruct H as [? [? [? [? [? [? [? [? [? [? [? [? H]]]]]]]]]]]]. cbv zeta in H.
        destruct (Z.eq_dec c (e_hash e f (SPair (i_ta i) (i_tb i)))) as [->|Ne].
        -- rewrite Hx in E1. inversion E1; subst q. eapply stable_same_tokens; [| |exact E2|..]; auto; try apply E2. simpl. lia.
        -- rewrite H in Hx. simpl in Hx. rewrite fget_set_other in Hx by auto. congruence.
Qed.

Lemma stable_time w n s : w_now w <= n -> AllStable w -> AllStable (set_time w n s).
Proof. intros L A c x Hx. apply A in Hx. eapply stable_same_tokens; [| |exact Hx|..]; auto. apply Hx. Qed.

Theorem reach_stable H w : reachable H w -> AllStable w.
Proof.
  apply reach_inv.
  - intros c x Hx. discriminate.
  - intros e k w1 w2 _ [G _ _] X. eapply stable_all_step; eauto.
  - intros; apply stable_time; [lia|auto].
Qed.
