(** The invariant of a stable pool, with holdings allowed to fall short by a drift: a copy of StableProofs/SysStable in which the reserves are bounded by the balance plus the drift. *)
From Coq Require Import ZArith List Bool Lia.
From Coq Require Import ZifyBool.
From Verif Require Import Base FMap Decimal DecimalProofs Curve CurveProofs World Token TokenProofs Frame Stake Pool PoolProofs
  Stable StableProofs Rewards Vest Factory Router System SysFrame SysInv SysPool SysStable.
Import ListNotations.
Open Scope Z_scope.

Section Drift.
Variable dr : Addr -> Addr -> Z.
Hypothesis dr_pos : forall t c, 0 <= dr t c.

Record StableD (w : World) (c : Addr) (p : Stable) : Prop := {
  lz_ord : l_ta p < l_tb p;
  lz_sa : l_share p <> l_ta p;
  lz_sb : l_share p <> l_tb p;
  lz_adm : tadmin w (l_share p) = Some c;
  lz_ra : 0 <= l_ra p <= bal w (l_ta p) c + dr (l_ta p) c;
  lz_rb : 0 <= l_rb p <= bal w (l_tb p) c + dr (l_tb p) c;
  lz_sup : supply w (l_share p) <= l_total p;
  lz_tot : 0 <= l_total p;
  lz_bps : vbps (l_fee p) && vbps (l_maxslip p) && vbps (l_maxspread p) = true;
  lz_amp : l_iamp p = l_namp p /\ l_iampt p = l_nampt p /\ 100 <= l_namp p <= 100000000;
  lz_ampt : l_nampt p <= w_now w;
  lz_dec : tdec w (l_ta p) = Some (l_preca p) /\ tdec w (l_tb p) = Some (l_precb p) /\
           l_prec p = Z.max (l_preca p) (l_precb p) /\ 0 <= l_preca p <= 18 /\ 0 <= l_precb p <= 18;
  lz_fit : l_total p <= I128_MAX }.

Lemma StableD_UT w w' c p : UT c w w' -> Ext w w' -> StableD w c p -> StableD w' c p.
Proof.
  intros U X I. destruct (ut_tok _ _ _ U _ (lz_adm _ _ _ I)) as [A S].
  pose proof (ut_bal _ _ _ U (l_ta p)). pose proof (ut_bal _ _ _ U (l_tb p)).
  pose proof (ex_now _ _ X). destruct (lz_dec _ _ _ I) as [D1 [D2 D3]].
  pose proof (ex_dec _ _ X _ _ D1). pose proof (ex_dec _ _ X _ _ D2).
  destruct I. constructor; auto; lia.
Qed.

Lemma lswap_invD e self sender offer amt mi ms mf w w' ret p amp sp cm ny w1 w2 w3 :
  LSwapEff e self sender offer amt mi ms mf w w' ret p amp sp cm ny w1 w2 w3 ->
  sender <> self -> StableD w self p ->
  exists p', fget self (w_stable w') = Some p' /\ StableD w' self p'.
Proof.
  intros E Hs I. destruct E as [Ep Eof Eau Eamp Epos SN Ecalc Emin Efee Ems Esp Ein Eout Ecom Eend]. subst w'.
  assert (Hf : 0 <= dec_bps (l_fee p) <= DEC).
  { apply dec_bps_fee. pose proof (lz_bps _ _ _ I). lia. }
  pose proof (StNums_range _ _ _ _ _ _ _ _ _ _ _ _ SN Hf) as [Rc Rr].
  pose proof (sm_ny _ _ _ _ _ _ _ _ _ _ _ _ SN) as Rn. pose proof (sm_sum _ _ _ _ _ _ _ _ _ _ _ _ SN) as Rs.
  pose proof (lz_ord _ _ _ I) as Hord.
  eexists. split; [simpl; apply fget_set_same|].
  assert (Bs : forall t, bal w3 t self >= bal w t self + ind (t =? offer) amt - ind (t =? l_buy p offer) (ret + cm)).
  { intros t. rewrite (mv_bal _ _ _ _ _ _ Ecom), (mv_bal _ _ _ _ _ _ Eout), (mv_bal _ _ _ _ _ _ Ein).
    rewrite (Z.eqb_refl self). rewrite !andb_true_r.
    destruct (Z.eqb_spec self sender); [congruence|]. rewrite !andb_false_r.
    unfold ind. destruct (t =? offer), (t =? l_buy p offer), (self =? l_feerec p); simpl; lia. }
  assert (S3 : forall t, supply w3 t = supply w t).
  { intros t. rewrite (mv_sup _ _ _ _ _ _ Ecom), (mv_sup _ _ _ _ _ _ Eout), (mv_sup _ _ _ _ _ _ Ein). auto. }
  assert (A3 : forall t, tadmin w3 t = tadmin w t).
  { intros t. rewrite (mv_adm _ _ _ _ _ _ Ecom), (mv_adm _ _ _ _ _ _ Eout), (mv_adm _ _ _ _ _ _ Ein). auto. }
  assert (D3 : forall t, tdec w3 t = tdec w t).
  { intros t. rewrite (mv_dec _ _ _ _ _ _ Ecom), (mv_dec _ _ _ _ _ _ Eout), (mv_dec _ _ _ _ _ _ Ein). auto. }
  assert (N3 : w_now w3 = w_now w).
  { rewrite (mv_rest _ _ _ _ _ _ Ecom), (mv_rest _ _ _ _ _ _ Eout), (mv_rest _ _ _ _ _ _ Ein). auto. }
  pose proof (Bs (l_ta p)) as Ba. pose proof (Bs (l_tb p)) as Bb.
  clear Bs. unfold set_l_for, l_res, l_oth, l_buy in *.
  destruct I as [I1 I2 I3 I4 I5 I6 I7 I8 I9 I10 I11 I12 I13].
  assert (K : forall q, l_ta q = l_ta p -> l_tb q = l_tb p -> l_share q = l_share p -> l_total q = l_total p ->
    l_fee q = l_fee p -> l_maxslip q = l_maxslip p -> l_maxspread q = l_maxspread p ->
    l_iamp q = l_iamp p -> l_namp q = l_namp p -> l_iampt q = l_iampt p -> l_nampt q = l_nampt p ->
    l_prec q = l_prec p -> l_preca q = l_preca p -> l_precb q = l_precb p ->
    0 <= l_ra q <= bal w3 (l_ta p) self + dr (l_ta p) self -> 0 <= l_rb q <= bal w3 (l_tb p) self + dr (l_tb p) self ->
    StableD (set_stable w3 (fset self q (w_stable w))) self q).
  { intros q E1 E2 E3 E4 E5 E6 E7 E8 E9 E10 E11 E12 E13 E14 R1 R2.
    constructor; rewrite ?E1, ?E2, ?E3, ?E4, ?E5, ?E6, ?E7, ?E8, ?E9, ?E10, ?E11, ?E12, ?E13, ?E14; auto.
    - rewrite <- I4. apply A3.
    - change (supply w3 (l_share p) <= l_total p). rewrite S3. auto.
    - simpl. lia.
    - destruct I12 as [T1 [T2 T3]]. split; [rewrite <- T1; apply D3|]. split; [rewrite <- T2; apply D3|]. auto. }
  destruct (Z.eqb_spec offer (l_ta p)) as [Eo|No].
  - subst offer. rewrite Z.eqb_refl in *.
    destruct (Z.eqb_spec (l_ta p) (l_tb p)); [lia|].
    destruct (Z.eqb_spec (l_tb p) (l_ta p)); [lia|]. unfold ind in *.
    apply K; try reflexivity; simpl; lia.
  - assert (offer = l_tb p) by tauto. subst offer. rewrite Z.eqb_refl in *.
    destruct (Z.eqb_spec (l_ta p) (l_tb p)); [lia|].
    destruct (Z.eqb_spec (l_tb p) (l_ta p)); [lia|]. unfold ind in *.
    apply K; try reflexivity; simpl; lia.
Qed.

Lemma lprovide_invD e self sender da db custom mins w w' p amp deca decb newd s w1 w2 w3 :
  LProvEff e self sender da db custom mins w w' p amp deca decb newd s w1 w2 w3 ->
  Good w -> w_now w' = w_now w -> sender <> self -> (forall q, fget self (w_stable w') = Some q -> l_total q <= I128_MAX) ->
  StableD w self p -> exists p', fget self (w_stable w') = Some p' /\ StableD w' self p'.
Proof.
  intros E G Hnow Hs Fit I. destruct E as [Ep Eau Epos Ecu Emin Eamp Eda Edb Enew Esh Ia Ib Mt Eend Ep'].
  pose proof (Fit _ Ep') as Fn. simpl in Fn.
  eexists. split; [exact Ep'|].
  assert (B2 : forall t, bal w2 t self = bal w t self + ind (t =? l_ta p) da + ind (t =? l_tb p) db).
  { intros t. rewrite (mv_bal _ _ _ _ _ _ Ib), (mv_bal _ _ _ _ _ _ Ia).
    rewrite (Z.eqb_refl self). rewrite !andb_true_r.
    destruct (Z.eqb_spec self sender); [congruence|]. rewrite !andb_false_r. unfold ind. lia. }
  pose proof (mt_bal _ _ _ _ _ Mt) as Mb.
  pose proof (mt_pos _ _ _ _ _ Mt) as Pn.
  pose proof (B2 (l_ta p)) as Ba. pose proof (B2 (l_tb p)) as Bb.
  pose proof (good_bal w (l_ta p) self G) as Ga. pose proof (good_bal w (l_tb p) self G) as Gb.
  pose proof (dr_pos (l_ta p) self) as Da. pose proof (dr_pos (l_tb p) self) as Db.
  destruct I as [I1 I2 I3 I4 I5 I6 I7 I8 I9 I10 I11 I12 I13].
  rewrite Z.eqb_refl in Ba. rewrite Z.eqb_refl in Bb.
  destruct (Z.eqb_spec (l_ta p) (l_tb p)); [lia|].
  destruct (Z.eqb_spec (l_tb p) (l_ta p)); [lia|].
  unfold ind in Ba, Bb.
  assert (TD : forall t, tdec w3 t = tdec w t).
  { intros. rewrite (mt_dec _ _ _ _ _ Mt), (mv_dec _ _ _ _ _ _ Ib), (mv_dec _ _ _ _ _ _ Ia). auto. }
  constructor; simpl; auto; rewrite ?(bal_wtok w3 w'), ?(supply_wtok w3 w'), ?(tadmin_wtok w3 w') by auto;
    rewrite ?Mb, ?(mt_sup _ _ _ _ _ Mt), ?(mt_adm _ _ _ _ _ Mt), ?(mv_adm _ _ _ _ _ _ Ib), ?(mv_adm _ _ _ _ _ _ Ia),
      ?(mv_sup _ _ _ _ _ _ Ib), ?(mv_sup _ _ _ _ _ _ Ia); auto; try lia.
  - rewrite Ba. simp_ind. lia.
  - rewrite Bb. simp_ind. lia.
  - rewrite Z.eqb_refl. simpl. lia.
  - unfold tdec in *. rewrite Eend, !TD. auto.
Qed.

Lemma lwithdraw_invD e self sender share mina minb w w' a b p ratio w1 w2 w3 w4 :
  LWdEff e self sender share mina minb w w' a b p ratio w1 w2 w3 w4 ->
  Good w -> w_now w' = w_now w -> sender <> self -> StableD w self p ->
  exists p', fget self (w_stable w') = Some p' /\ StableD w' self p'.
Proof.
  intros E G Hnow Hs I. destruct E as [Ep Eau Epos Et Er Ea Eb Emin Ein Ebn Eoa Eob Eend Ep'].
  eexists. split; [exact Ep'|].
  pose proof (good_supply w (l_share p) sender G) as G2.
  pose proof (mv_le _ _ _ _ _ _ Ein) as Ls.
  destruct I as [I1 I2 I3 I4 I5 I6 I7 I8 I9 I10 I11 I12 I13].
  assert (PT : 0 < l_total p) by lia.
  destruct (wd_numbers _ _ _ _ _ (proj1 Epos) PT (proj1 I5) Er Ea) as [Na [La _]].
  destruct (wd_numbers _ _ _ _ _ (proj1 Epos) PT (proj1 I6) Er Eb) as [Nb [Lb _]].
  assert (B4 : forall t, bal w4 t self = bal w t self - ind (t =? l_ta p) a - ind (t =? l_tb p) b).
  { intros t. rewrite (mv_bal _ _ _ _ _ _ Eob), (mv_bal _ _ _ _ _ _ Eoa), (bn_bal _ _ _ _ _ Ebn), (mv_bal _ _ _ _ _ _ Ein).
    rewrite (Z.eqb_refl self). rewrite !andb_true_r.
    destruct (Z.eqb_spec self sender); [congruence|]. rewrite !andb_false_r. unfold ind. lia. }
  assert (S4 : forall t, supply w4 t = supply w t - ind (t =? l_share p) share).
  { intros t. rewrite (mv_sup _ _ _ _ _ _ Eob), (mv_sup _ _ _ _ _ _ Eoa), (bn_sup _ _ _ _ _ Ebn), (mv_sup _ _ _ _ _ _ Ein). auto. }
  assert (A4 : forall t, tadmin w4 t = tadmin w t).
  { intros t. rewrite (mv_adm _ _ _ _ _ _ Eob), (mv_adm _ _ _ _ _ _ Eoa), (bn_adm _ _ _ _ _ Ebn), (mv_adm _ _ _ _ _ _ Ein). auto. }
  assert (TD : forall t, tdec w4 t = tdec w t).
  { intros t. rewrite (mv_dec _ _ _ _ _ _ Eob), (mv_dec _ _ _ _ _ _ Eoa), (bn_dec _ _ _ _ _ Ebn), (mv_dec _ _ _ _ _ _ Ein). auto. }
  assert (Ka : a <= l_ra p) by nia.
  assert (Kb : b <= l_rb p) by nia.
  constructor; simpl; auto; rewrite ?(bal_wtok w4 w'), ?(supply_wtok w4 w'), ?(tadmin_wtok w4 w') by auto;
    rewrite ?B4, ?S4, ?A4; unfold ind; rewrite ?Z.eqb_refl; auto; try lia.
  - destruct (Z.eqb_spec (l_ta p) (l_tb p)); lia.
  - destruct (Z.eqb_spec (l_tb p) (l_ta p)); lia.
  - unfold tdec in *. rewrite Eend, !TD. auto.
Qed.

Definition AllStableD : World -> Prop := AllI w_stable StableD.

Lemma stable_swap_invD e c self sender o a mi ms dl mf w r w' p :
  stable_swap e c self sender o a mi ms dl mf w = Ok (r, w') -> Good w -> c <> Some self ->
  fget self (w_stable w) = Some p -> StableD w self p ->
  exists p', fget self (w_stable w') = Some p' /\ StableD w' self p'.
Proof.
  intros H G N Ep I. apply stable_swap_ok in H. destruct H as [C [A [Pa [_ H]]]].
  pose proof (authed_ne _ _ _ _ _ _ G C N A) as Ns.
  apply stable_do_swap_ok in H; auto. destruct H as [p0 [am [sp [cm [ny [w1 [w2 [w3 E]]]]]]]].
  pose proof (ls_pool _ _ _ _ _ _ _ _ _ _ _ _ _ _ _ _ _ _ _ E) as Ep0. rewrite Ep in Ep0. inversion Ep0; subst p0.
  eapply lswap_invD; eauto.
Qed.

Lemma stable_initialize_invD e self i f am mf w u w' :
  stable_initialize e self i f am mf w = Ok (u, w') -> Good w ->
  exists p, fget self (w_stable w') = Some p /\ StableD w' self p.
Proof.
  intros H G. apply stable_initialize_ok in H.
  destruct H as [C [Np [V [Lf [A0 [A1 [A2 [pa [pb [Da [Db [NP E]]]]]]]]]]]].
  cbv zeta in E. subst w'. eexists. split; [simpl; apply fget_set_same|].
  assert (NT : fget (e_hash e self (SPair (i_ta i) (i_tb i))) (w_tok w) = None).
  { destruct (fget _ (w_tok w)) eqn:Et; auto. apply (gd_ctok _ G) in Et. rewrite (np_share _ _ _ _ _ _ NP) in Et. discriminate. }
  set (dd := if pb <? pa then pa else pb) in *.
  assert (HB : forall t a, 0 <= bal (with_children (e_hash e) self i f dd w) t a).
  { intros t a. unfold bal; simpl. rewrite fget_set. destruct (t =? _).
    - unfold tk_balance, fgetd; simpl. lia.
    - apply (good_bal w t a G). }
  assert (Rd : forall t d, tdec w t = Some d -> 0 <= d <= 18).
  { intros t d Hd. unfold tdec in Hd. destruct (fget t (w_tok w)) eqn:Et; inversion Hd; subst.
    apply (tg_dec _ (gd_tok _ G _ _ Et)). }
  destruct NP as [N1 N2 N3 N4 N5 N6 N7 N8 N9 N10 N11]. unfold AMP_PRECISION, MAX_AMP in *.
  constructor; simpl; auto; try lia.
  - unfold tadmin; simpl. rewrite fget_set_same. reflexivity.
  - split; [lia|]. apply Z.add_nonneg_nonneg; [apply HB|apply dr_pos].
  - split; [lia|]. apply Z.add_nonneg_nonneg; [apply HB|apply dr_pos].
  - unfold supply; simpl. rewrite fget_set_same. unfold tk_supply; simpl. lia.
  - unfold tdec in *; simpl. rewrite !fget_set_other by auto.
    split; [auto|]. split; [auto|]. split; [unfold dd; destruct (Z.ltb_spec pb pa); lia|]. split; eauto.
  - unfold I128_MAX; lia.
Qed.

Lemma stable_same_tokensD w w' c p p' : w_tok w' = w_tok w -> w_now w <= w_now w' -> StableD w c p ->
  l_ta p' = l_ta p -> l_tb p' = l_tb p -> l_share p' = l_share p -> l_total p' = l_total p ->
  l_ra p' = l_ra p -> l_rb p' = l_rb p ->
  l_iamp p' = l_iamp p -> l_namp p' = l_namp p -> l_iampt p' = l_iampt p -> l_nampt p' = l_nampt p ->
  l_prec p' = l_prec p -> l_preca p' = l_preca p -> l_precb p' = l_precb p ->
  vbps (l_fee p') && vbps (l_maxslip p') && vbps (l_maxspread p') = true ->
  StableD w' c p'.
Proof.
  intros E Nw I E1 E2 E3 E4 E5 E6 E7 E8 E9 E10 E11 E12 E13 V. destruct I as [I1 I2 I3 I4 I5 I6 I7 I8 I9 I10 I11 I12 I13].
  constructor; rewrite ?(bal_wtok w w'), ?(supply_wtok w w'), ?(tadmin_wtok w w') by auto;
    rewrite ?E1, ?E2, ?E3, ?E4, ?E5, ?E6, ?E7, ?E8, ?E9, ?E10, ?E11, ?E12, ?E13; auto; try lia.
  unfold tdec in *. rewrite E. auto.
Qed.

Lemma stable_config_invD self s a1 a2 a3 a4 a5 w u w' p :
  stable_update_config self s a1 a2 a3 a4 a5 w = Ok (u, w') ->
  fget self (w_stable w) = Some p -> StableD w self p ->
  exists p', fget self (w_stable w') = Some p' /\ StableD w' self p'.
Proof.
  unfold stable_update_config. intros H Ep I. rstep H. winv.
  match goal with R : fget self (w_stable w) = Some ?q |- _ => rewrite Ep in R; inversion R; subst q end.
  eexists. split; [simpl; apply fget_set_same|].
  eapply stable_same_tokensD; [| |exact I|..]; simpl; auto; try lia.
  pose proof (lz_bps _ _ _ I). unfold vbps_o, opt_or in *. destruct a2, a4, a5; lia.
Qed.

Lemma hI_stableD w w' c p : UT c w w' -> Ext w w' -> fget c (w_code w) = Some KStable -> StableD w c p -> StableD w' c p.
Proof. intros U X _ I. eapply StableD_UT; eauto. Qed.

Lemma any_swap_stablesD e c p u o a mi ms dl mf w r w' :
  any_swap e c p u o a mi ms dl mf w = Ok (r, w') -> Good w -> not_pool w c -> AllStableD w -> AllStableD w'.
Proof.
  intros H G N A. 
  pose proof (framek_any_swap _ _ _ _ _ _ _ _ _ _ _ _ _ H G) as [G' [X' _]].
  pose proof (sc_any_swap _ _ _ _ _ _ _ _ _ _ _ _ _ H) as Sc. unfold SameCode in Sc.
  unfold any_swap in H. apply mbind_ok in H. destruct H as [w0 [w1 [E H]]].
  apply mget_ok in E. inversion E; subst w0 w1; clear E.
  destruct (fget p (w_code w)) as [[]|] eqn:Ec; try discriminate; intros c' x Hx.
  - pose proof (frame_pool_swap _ _ _ _ _ _ _ _ _ _ _ _ _ H) as F.
    destruct (F G) as [_ [_ [_ [_ [_ U]]]]]; [intros s Es; inversion Es; subst; auto|].
    pose proof (gd_cstable _ G' _ _ Hx) as Hc. rewrite Sc in Hc.
    eapply (kind_keep w_stable KStable StableD gd_cstable (fun _ _ _ H => ut_stable _ _ _ H) hI_stableD w w' c'); eauto; [congruence|].
    intros. eapply U; eauto. congruence.
  - destruct (Z.eq_dec c' p) as [->|Ne].
    + pose proof H as H0. apply stable_swap_ok in H0. destruct H0 as [_ [_ [_ [_ H0]]]].
      unfold stable_do_swap in H0. apply mbind_ok in H0. destruct H0 as [q [? [H0 _]]]. winv.
      eapply stable_swap_invD in H; eauto.
      * destruct H as [p' [E1 E2]]. rewrite Hx in E1. inversion E1; subst. auto.
      * intros ->. destruct (N p eq_refl). contradiction.
    + pose proof (frame_stable_swap _ _ _ _ _ _ _ _ _ _ _ _ _ H) as F.
      destruct (F G) as [_ [_ [_ [_ [_ U]]]]]; [intros s Es; inversion Es; subst; auto|].
      pose proof (gd_cstable _ G' _ _ Hx) as Hc. rewrite Sc in Hc.
      eapply (kind_keep w_stable KStable StableD gd_cstable (fun _ _ _ H => ut_stable _ _ _ H) hI_stableD w w' c'); eauto; [congruence|].
      intros. eapply U; eauto. congruence.
Qed.

Lemma hop_swaps_stablesD e self f r ops ms dl mf : forall amt w x w',
  hop_swaps e self f r ops amt ms dl mf w = Ok (x, w') -> Good w ->
  fget self (w_code w) = Some KHop -> AllStableD w -> AllStableD w'.
Proof.
  induction ops as [|o ops IH]; simpl; intros amt w x w' H G C A.
  - rstep H. auto.
  - apply mbind_ok in H. destruct H as [p [w1 [H1 H]]]. apply pure_fact_pool_by_pair in H1. subst w1.
    apply mbind_ok in H. destruct H as [v [w2 [H2 H]]].
    pose proof (framek_any_swap _ _ _ _ _ _ _ _ _ _ _ _ _ H2 G) as [G' [X' _]].
    eapply IH; [exact H|exact G'|apply (ex_code _ _ X'); auto|].
    eapply any_swap_stablesD; eauto. intros a' E. inversion E; subst. split; congruence.
Qed.

Lemma stable_provide_invD e c self sender da db custom dl mins w u w' p :
  stable_provide e c self sender da db custom dl mins w = Ok (u, w') -> Good w -> c <> Some self ->
  fget self (w_stable w) = Some p -> StableD w self p ->
  exists p', fget self (w_stable w') = Some p' /\ StableD w' self p'.
Proof.
  intros H G N Ep I. pose proof (enter_first _ _ _ _ _ _ H) as C.
  assert (Nw : w_now w' = w_now w).
  { eapply (frame_stable_provide _ _ _ _ _ _ _ _ _ _ _ _ H); auto. intros s Es; inversion Es; subst; auto. }
  assert (A : authed e c sender = true) by (unfold stable_provide in H; rstep H; winv; auto).
  pose proof (authed_ne _ _ _ _ _ _ G C N A) as Ns.
  pose proof (fun q => stable_provide_fits _ _ _ _ _ _ _ _ _ _ _ _ q H) as Fit.
  apply stable_provide_ok in H; auto.
  - destruct H as [_ [_ [p0 [am [x [y [nd [s [w1 [w2 [w3 E]]]]]]]]]]].
    pose proof (lp_pool _ _ _ _ _ _ _ _ _ _ _ _ _ _ _ _ _ _ E) as Ep0. rewrite Ep in Ep0. inversion Ep0; subst p0.
    eapply lprovide_invD; eauto.
  - intros q Eq. rewrite Ep in Eq. inversion Eq; subst. pose proof (lz_ord _ _ _ I). lia.
Qed.

Lemma stable_withdraw_invD e c self sender share mina minb dl w r w' p :
  stable_withdraw e c self sender share mina minb dl w = Ok (r, w') -> Good w -> c <> Some self ->
  fget self (w_stable w) = Some p -> StableD w self p ->
  exists p', fget self (w_stable w') = Some p' /\ StableD w' self p'.
Proof.
  intros H G N Ep I. pose proof (enter_first _ _ _ _ _ _ H) as C. destruct r as [a b].
  assert (Nw : w_now w' = w_now w).
  { eapply (frame_stable_withdraw _ _ _ _ _ _ _ _ _ _ _ H); auto. intros s Es; inversion Es; subst; auto. }
  apply stable_withdraw_ok in H. destruct H as [_ [A [p0 [ratio [w1 [w2 [w3 [w4 E]]]]]]]].
  pose proof (authed_ne _ _ _ _ _ _ G C N A) as Ns.
  pose proof (lw_pool _ _ _ _ _ _ _ _ _ _ _ _ _ _ _ _ E) as Ep0. rewrite Ep in Ep0. inversion Ep0; subst p0.
  eapply lwithdraw_invD; eauto.
Qed.

Lemma stable_all_stepD e k w w' : exec e k w = Ok (tt, w') -> Good w -> AllStableD w -> AllStableD w'.
Proof.
  intros H G A.
  assert (OWN : forall c, (exists p', fget c (w_stable w') = Some p' /\ StableD w' c p') ->
    forall x', fget c (w_stable w') = Some x' -> StableD w' c x').
  { intros c [p' [E1 E2]] x' Hx. rewrite Hx in E1. inversion E1; subst; auto. }
  destruct (routed k) eqn:R.
  { destruct k; try discriminate R; simpl in H; apply drop_ok in H; destruct H as [r H].
    - unfold hop_swap in H. rstep H. winv. eapply hop_swaps_stablesD; eauto.
    - apply trader_trade_ok in H. destruct H as [dd [amt [C [_ [_ [_ [_ [_ [_ H]]]]]]]]].
      eapply any_swap_stablesD; eauto. intros a' E. inversion E; subst. split; congruence. }
  refine (kind_step w_stable KStable StableD gd_cstable (fun _ _ _ H => ut_stable _ _ _ H) hI_stableD e k w w' H G A _ _).
  - intros c [T|[T _]] C; [|congruence]. apply OWN.
    pose proof (exec_tkind _ _ _ _ _ H T) as TK. rewrite C in TK.
    destruct k; simpl in T, TK; inversion T; try discriminate TK; subst; simpl in H; try discriminate R;
      try (apply drop_ok in H; destruct H as [r H]).
    all: try (destruct (fget c (w_stable w)) as [p0|] eqn:Ep;
      [|exfalso; match type of H with ?m = _ => unfold stable_provide, stable_swap, stable_do_swap, stable_withdraw, stable_update_config, stable_upgrade in H end;
        rstep H; winv; congruence]; pose proof (A _ _ Ep) as I).
    + eapply stable_initialize_invD; eauto.
    + eapply stable_provide_invD; eauto; discriminate.
    + eapply stable_swap_invD; eauto; discriminate.
    + eapply stable_withdraw_invD; eauto; discriminate.
    + eapply stable_config_invD; eauto.
    + apply stable_upgrade_ok in H. subst w'. exists p0. split; [exact Ep|]. eapply stable_same_tokensD; [| |exact I|..]; simpl; auto; try lia; apply I.
  - intros c x' D G' C Hx.
    assert (NoP : fget c (w_stable w) = None).
    { destruct (fget c (w_stable w)) eqn:E; auto. apply (gd_cstable _ G) in E. congruence. }
    destruct k; try discriminate D; deploy_cases H.
    1-5: subst w'; simpl in Hx; rewrite ?fget_set in Hx; try congruence.
    + destruct (Z.eqb_spec c p); congruence.
    + match goal with Q : match ty with Xyk => _ | StableT => _ end |- _ => rename Q into Hm end.
      subst. rename Hm into H.
      match goal with Q : fget (e_hash e f (SPair (i_ta i) (i_tb i))) (w_code w) = None |- _ => rename Q into Hn end.
      match goal with Q : 0 <= e_hash e f (SPair (i_ta i) (i_tb i)) |- _ => rename Q into Hp end.
      pose proof (Good_newcode _ (kind_of ty) _ Hp Hn G) as G1.
      simpl in Hx.
      destruct ty; simpl in H, G1.
      * apply pool_initialize_ok in H. destruct H as [_ [_ [_ [_ [_ H]]]]]. cbv zeta in H. subst. simpl in Hx. congruence.
      * destruct H as [a [_ H]].
        pose proof (stable_initialize_invD _ _ _ _ _ _ _ _ _ H G1) as [q [E1 E2]].
        apply stable_initialize_ok in H.
        destruct H as [? [? [? [? [? [? [? [? [? [? [? [? H]]]]]]]]]]]]. cbv zeta in H.
        destruct (Z.eq_dec c (e_hash e f (SPair (i_ta i) (i_tb i)))) as [->|Ne].
        -- rewrite Hx in E1. inversion E1; subst q. eapply stable_same_tokensD; [| |exact E2|..]; auto; try apply E2. simpl. lia.
        -- rewrite H in Hx. simpl in Hx. rewrite fget_set_other in Hx by auto. congruence.
Qed.

Lemma stable_timeD w n s : w_now w <= n -> AllStableD w -> AllStableD (set_time w n s).
Proof. intros L A c x Hx. apply A in Hx. eapply stable_same_tokensD; [| |exact Hx|..]; auto. apply Hx. Qed.


End Drift.
