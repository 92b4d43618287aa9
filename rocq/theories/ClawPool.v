(** The invariant of a constant-product pool, with holdings allowed to fall short by a drift: a copy of PoolProofs/SysPool in which the reserves are bounded by the balance plus the drift. *)
From Coq Require Import ZArith List Bool Lia.
From Coq Require Import ZifyBool.
From Verif Require Import Base FMap Decimal DecimalProofs Curve CurveProofs World Token TokenProofs Frame Stake Pool PoolProofs
  Stable StableProofs Rewards Vest Factory Router System SysFrame SysInv SysPool.
Import ListNotations.
Open Scope Z_scope.

Section Drift.
Variable dr : Addr -> Addr -> Z.
Hypothesis dr_pos : forall t c, 0 <= dr t c.

Record PoolD (w : World) (c : Addr) (p : Pool) : Prop := {
  pz_ord : p_ta p < p_tb p;
  pz_sa : p_share p <> p_ta p;
  pz_sb : p_share p <> p_tb p;
  pz_adm : tadmin w (p_share p) = Some c;
  pz_ra : 0 <= p_ra p <= bal w (p_ta p) c + dr (p_ta p) c;
  pz_rb : 0 <= p_rb p <= bal w (p_tb p) c + dr (p_tb p) c;
  pz_sup : supply w (p_share p) <= p_total p;
  pz_min : p_total p = 0 \/ (1000 <= p_total p /\ 1000 <= bal w (p_share p) c);
  pz_zero : p_total p = 0 -> p_ra p = 0 /\ p_rb p = 0;
  pz_some : p_total p <> 0 -> 0 < p_ra p \/ 0 < p_rb p;
  pz_bps : vbps (p_fee p) && vbps (p_maxslip p) && vbps (p_maxspread p) && vbps (p_maxref p) = true;
  pz_fit : p_total p <= I128_MAX }.

Lemma PoolD_UT w w' c p : UT c w w' -> PoolD w c p -> PoolD w' c p.
Proof.
  intros U I. destruct (ut_tok _ _ _ U _ (pz_adm _ _ _ I)) as [A S].
  pose proof (ut_bal _ _ _ U (p_ta p)). pose proof (ut_bal _ _ _ U (p_tb p)).
  pose proof (ut_bal _ _ _ U (p_share p)).
  destruct I. constructor; auto; lia.
Qed.

Lemma swap_invD e self sender offer amt mi ms mf w w' ret p r w1 w2 w3 :
  SwapEff e self sender offer amt mi ms mf w w' ret p r w1 w2 w3 ->
  sender <> self -> PoolD w self p ->
  exists p', fget self (w_pool w') = Some p' /\ PoolD w' self p'.
Proof.
  intros E Hs I. destruct E. subst w' ret.
  pose proof (compute_swap_ok _ _ _ _ _ se_nums) as SN.
  pose proof (sn_x _ _ _ _ _ SN) as Px.
  pose proof (gross_bounds _ _ _ (sn_x _ _ _ _ _ SN) (sn_y _ _ _ _ _ SN) (sn_dx _ _ _ _ _ SN)) as [GB _].
  rewrite <- (sn_sum _ _ _ _ _ SN) in GB.
  pose proof (sn_ret _ _ _ _ _ SN). pose proof (sn_comm_pos _ _ _ _ _ SN). pose proof (sn_dx _ _ _ _ _ SN).
  pose proof (pz_ord _ _ _ I) as Hord.
  eexists. split; [simpl; apply fget_set_same|].
  assert (B : forall t a, bal (set_pool w3 (fset self (set_res_for p offer (res_of p offer + amt)
             (res_other p offer - (cs_ret r + cs_comm r))) (w_pool w))) t a = bal w3 t a) by reflexivity.
  assert (Bs : forall t, bal w3 t self >= bal w t self + ind (t =? offer) amt - ind (t =? buy_of p offer) (cs_ret r + cs_comm r)).
  { intros t. rewrite (mv_bal _ _ _ _ _ _ se_com), (mv_bal _ _ _ _ _ _ se_out), (mv_bal _ _ _ _ _ _ se_in).
    rewrite (Z.eqb_refl self). rewrite !andb_true_r.
    destruct (Z.eqb_spec self sender); [congruence|]. rewrite !andb_false_r.
    unfold ind. destruct (t =? offer), (t =? buy_of p offer), (self =? p_feerec p); simpl; lia. }
  assert (S3 : forall t, supply w3 t = supply w t).
  { intros t. rewrite (mv_sup _ _ _ _ _ _ se_com), (mv_sup _ _ _ _ _ _ se_out), (mv_sup _ _ _ _ _ _ se_in). auto. }
  assert (A3 : forall t, tadmin w3 t = tadmin w t).
  { intros t. rewrite (mv_adm _ _ _ _ _ _ se_com), (mv_adm _ _ _ _ _ _ se_out), (mv_adm _ _ _ _ _ _ se_in). auto. }
  pose proof (Bs (p_ta p)) as Ba. pose proof (Bs (p_tb p)) as Bb. pose proof (Bs (p_share p)) as Bsh.
  clear Bs. unfold set_res_for, res_of, res_other, buy_of in *.
  destruct I. 
  destruct (Z.eqb_spec offer (p_ta p)) as [Eo|No].
  - subst offer. rewrite Z.eqb_refl in *.
    destruct (Z.eqb_spec (p_ta p) (p_tb p)); [lia|].
    destruct (Z.eqb_spec (p_tb p) (p_ta p)); [lia|].
    destruct (Z.eqb_spec (p_share p) (p_ta p)); [congruence|].
    destruct (Z.eqb_spec (p_share p) (p_tb p)); [congruence|]. unfold ind in *.
    constructor; simpl; auto; rewrite ?B; unfold supply, tadmin in *; simpl in *; try rewrite S3; try rewrite A3; auto; try lia.
  - assert (offer = p_tb p) by tauto. subst offer. rewrite Z.eqb_refl in *.
    destruct (Z.eqb_spec (p_ta p) (p_tb p)); [lia|].
    destruct (Z.eqb_spec (p_share p) (p_ta p)); [congruence|].
    destruct (Z.eqb_spec (p_share p) (p_tb p)); [congruence|]. unfold ind in *.
    destruct (Z.eqb_spec (p_tb p) (p_ta p)); [lia|].
    constructor; simpl; auto; rewrite ?B; unfold supply, tadmin in *; simpl in *; try rewrite S3; try rewrite A3; auto; try lia.
Qed.

Lemma provide_invD e self sender da mina db minb custom w w' p xa xb a b w1 w2 w4 :
  ProvEff e self sender da mina db minb custom w w' p xa xb a b w1 w2 w4 ->
  Good w -> sender <> self -> (forall q, fget self (w_pool w') = Some q -> p_total q <= I128_MAX) -> PoolD w self p ->
  exists p', fget self (w_pool w') = Some p' /\ PoolD w' self p'.
Proof.
  intros E G Hs Fit I. destruct E. destruct pe_tot as [n [Ep Hn]]. pose proof (Fit _ Ep) as Fn. simpl in Fn.
  pose proof (deposit_amounts_ok _ _ _ _ _ _ _ _ _ pe_nums ltac:(apply (pz_ra _ _ _ I)) ltac:(apply (pz_rb _ _ _ I))) as DN.
  eexists. split; [exact Ep|].
  pose proof (dn_a _ _ _ _ _ _ _ _ _ DN) as Pa. pose proof (dn_b _ _ _ _ _ _ _ _ _ DN) as Pb.
  pose proof (dn_da _ _ _ _ _ _ _ _ _ DN) as Pda. pose proof (dn_db _ _ _ _ _ _ _ _ _ DN) as Pdb.
  assert (B2 : forall t, bal w2 t self = bal w t self + ind (t =? p_ta p) a + ind (t =? p_tb p) b).
  { intros t. rewrite (mv_bal _ _ _ _ _ _ pe_in_b), (mv_bal _ _ _ _ _ _ pe_in_a).
    rewrite (Z.eqb_refl self). rewrite !andb_true_r.
    destruct (Z.eqb_spec self sender); [congruence|]. rewrite !andb_false_r. unfold ind. lia. }
  assert (S2 : forall t, supply w2 t = supply w t).
  { intros t. rewrite (mv_sup _ _ _ _ _ _ pe_in_b), (mv_sup _ _ _ _ _ _ pe_in_a). auto. }
  assert (A2 : forall t, tadmin w2 t = tadmin w t).
  { intros t. rewrite (mv_adm _ _ _ _ _ _ pe_in_b), (mv_adm _ _ _ _ _ _ pe_in_a). auto. }
  pose proof (B2 (p_ta p)) as Ba. pose proof (B2 (p_tb p)) as Bb. pose proof (B2 (p_share p)) as Bsh.
  pose proof (good_bal w (p_ta p) self G) as Ga. pose proof (good_bal w (p_tb p) self G) as Gb.
  pose proof (dr_pos (p_ta p) self) as Da. pose proof (dr_pos (p_tb p) self) as Db.
  destruct I.
  rewrite Z.eqb_refl in Ba. rewrite Z.eqb_refl in Bb.
  destruct (Z.eqb_spec (p_ta p) (p_tb p)); [lia|].
  destruct (Z.eqb_spec (p_tb p) (p_ta p)); [lia|].
  destruct (Z.eqb_spec (p_share p) (p_ta p)); [congruence|].
  destruct (Z.eqb_spec (p_share p) (p_tb p)); [congruence|].
  unfold ind in Ba, Bb, Bsh.
  destruct Hn as [[Fa [Fb [Mt En]]]|[Nf [S1000 [En [w3 [Mt0 Mt]]]]]].
  - pose proof (mt_pos _ _ _ _ _ Mt) as Pn.
    pose proof (mt_bal _ _ _ _ _ Mt) as Mb. pose proof (mt_sup _ _ _ _ _ Mt) as Ms. pose proof (mt_adm _ _ _ _ _ Mt) as Ma.
    assert (T1 : 1000 <= p_total p /\ 1000 <= bal w (p_share p) self).
    { destruct pz_min0; auto. specialize (pz_zero0 H). lia. }
    assert (NA : 0 < bal w2 (p_ta p) self).
    { destruct (Z.eq_dec (bal w2 (p_ta p) self) 0) as [Z0|Z0]; [|lia].
      rewrite Z0 in En. change (0 * p_total p) with 0 in En. rewrite Z.quot_0_l in En by lia. lia. }
    constructor; simpl; auto; rewrite ?(bal_wtok w4 w'), ?(supply_wtok w4 w'), ?(tadmin_wtok w4 w') by auto;
      rewrite ?Mb, ?Ms, ?Ma, ?A2, ?S2, ?Z.eqb_refl; simp_ind; auto; try lia.
    all: unfold ind; repeat match goal with |- context [if ?b then _ else _] => destruct b end; lia.
  - assert (T0 : p_total p = 0).
    { destruct (dn_case _ _ _ _ _ _ _ _ _ DN) as [C|C]; [|lia].
      destruct (Z.eq_dec (p_total p) 0); auto. specialize (pz_some0 n4). lia. }
    pose proof (mt_pos _ _ _ _ _ Mt) as Pn.
    pose proof (mt_bal _ _ _ _ _ Mt) as Mb. pose proof (mt_sup _ _ _ _ _ Mt) as Ms. pose proof (mt_adm _ _ _ _ _ Mt) as Ma.
    pose proof (mt_bal _ _ _ _ _ Mt0) as Mb0. pose proof (mt_sup _ _ _ _ _ Mt0) as Ms0. pose proof (mt_adm _ _ _ _ _ Mt0) as Ma0.
    assert (NN : 0 < bal w2 (p_ta p) self).
    { destruct (dn_case _ _ _ _ _ _ _ _ _ DN) as [C|C]; lia. }
    constructor; simpl; auto; rewrite ?(bal_wtok w4 w'), ?(supply_wtok w4 w'), ?(tadmin_wtok w4 w') by auto;
      rewrite ?Mb, ?Ms, ?Ma, ?Mb0, ?Ms0, ?Ma0, ?A2, ?S2, ?Z.eqb_refl; simp_ind; auto; try lia.
    all: pose proof (good_bal w (p_share p) self G);
      unfold ind; repeat match goal with |- context [if ?b then _ else _] => destruct b end; lia.
Qed.

Lemma withdraw_invD e self sender share mina minb w w' a b p ratio w1 w2 w3 w4 :
  WdEff e self sender share mina minb w w' a b p ratio w1 w2 w3 w4 ->
  Good w -> sender <> self -> PoolD w self p ->
  exists p', fget self (w_pool w') = Some p' /\ PoolD w' self p'.
Proof.
  intros E G Hs I. destruct E.
  eexists. split; [exact we_pool'|].
  assert (T1 : 1000 <= p_total p /\ 1000 <= bal w (p_share p) self) by (destruct (pz_min _ _ _ I); tauto).
  pose proof (good_supply2 w (p_share p) self sender G (not_eq_sym Hs)) as G2.
  pose proof (mv_le _ _ _ _ _ _ we_in) as Ls.
  pose proof (pz_sup _ _ _ I) as Ps.
  assert (PT : 0 < p_total p) by lia.
  destruct (wd_numbers _ _ _ _ _ (proj1 we_pos) PT (proj1 (pz_ra _ _ _ I)) we_ratio we_a) as [Na [La _]].
  destruct (wd_numbers _ _ _ _ _ (proj1 we_pos) PT (proj1 (pz_rb _ _ _ I)) we_ratio we_b) as [Nb [Lb _]].
  assert (B4 : forall t, bal w4 t self = bal w t self - ind (t =? p_ta p) a - ind (t =? p_tb p) b).
  { intros t. rewrite (mv_bal _ _ _ _ _ _ we_out_b), (mv_bal _ _ _ _ _ _ we_out_a), (bn_bal _ _ _ _ _ we_burn), (mv_bal _ _ _ _ _ _ we_in).
    rewrite (Z.eqb_refl self). rewrite !andb_true_r.
    destruct (Z.eqb_spec self sender); [congruence|]. rewrite !andb_false_r. unfold ind. lia. }
  assert (S4 : forall t, supply w4 t = supply w t - ind (t =? p_share p) share).
  { intros t. rewrite (mv_sup _ _ _ _ _ _ we_out_b), (mv_sup _ _ _ _ _ _ we_out_a), (bn_sup _ _ _ _ _ we_burn), (mv_sup _ _ _ _ _ _ we_in). auto. }
  assert (A4 : forall t, tadmin w4 t = tadmin w t).
  { intros t. rewrite (mv_adm _ _ _ _ _ _ we_out_b), (mv_adm _ _ _ _ _ _ we_out_a), (bn_adm _ _ _ _ _ we_burn), (mv_adm _ _ _ _ _ _ we_in). auto. }
  assert (Ka : a <= p_ra p). { destruct I. nia. }
  assert (Kb : b <= p_rb p). { destruct I. nia. }
  assert (Ka2 : 0 < p_ra p -> a < p_ra p). { intros. nia. }
  assert (Kb2 : 0 < p_rb p -> b < p_rb p). { intros. nia. }
  destruct I.
  constructor; simpl; auto; rewrite ?(bal_wtok w4 w'), ?(supply_wtok w4 w'), ?(tadmin_wtok w4 w') by auto;
    rewrite ?B4, ?S4, ?A4; unfold ind; rewrite ?Z.eqb_refl; auto.
  - destruct (Z.eqb_spec (p_ta p) (p_tb p)); lia.
  - destruct (Z.eqb_spec (p_tb p) (p_ta p)); lia.
  - lia.
  - right. destruct (Z.eqb_spec (p_share p) (p_ta p)); [congruence|].
    destruct (Z.eqb_spec (p_share p) (p_tb p)); [congruence|]. lia.
  - lia.
  - intros _. destruct (pz_some0 we_total); [left|right]; lia.
  - lia.
Qed.

Definition AllPoolD : World -> Prop := AllI w_pool PoolD.

Lemma pool_swap_invD e c self sender o a mi ms dl mf w r w' p :
  pool_swap e c self sender o a mi ms dl mf w = Ok (r, w') -> Good w -> c <> Some self ->
  fget self (w_pool w) = Some p -> PoolD w self p ->
  exists p', fget self (w_pool w') = Some p' /\ PoolD w' self p'.
Proof.
  intros H G N Ep I. apply pool_swap_ok in H. destruct H as [C [A [Pa [_ H]]]].
  pose proof (authed_ne _ _ _ _ _ _ G C N A) as Ns.
  apply do_swap_ok in H; auto. destruct H as [p0 [r0 [w1 [w2 [w3 E]]]]].
  pose proof (se_pool _ _ _ _ _ _ _ _ _ _ _ _ _ _ _ _ E) as Ep0. rewrite Ep in Ep0. inversion Ep0; subst p0.
  eapply swap_invD; eauto.
Qed.

Lemma pool_initialize_invD e self i f d ds mf w u w' :
  pool_initialize e self i f d ds mf w = Ok (u, w') -> Good w ->
  exists p, fget self (w_pool w') = Some p /\ PoolD w' self p.
Proof.
  intros H G. apply pool_initialize_ok in H. destruct H as [C [Np [V [Lf [NP E]]]]].
  cbv zeta in E. subst w'. eexists. split; [simpl; apply fget_set_same|].
  assert (Hb : forall w0 t a, Good w0 -> 0 <= bal w0 t a) by (intros; apply good_bal; auto).
  assert (NT : fget (e_hash e self (SPair (i_ta i) (i_tb i))) (w_tok w) = None).
  { destruct (fget _ (w_tok w)) eqn:Et; auto. apply (gd_ctok _ G) in Et. rewrite (np_share _ _ _ _ _ _ NP) in Et. discriminate. }
  assert (HB : forall t a, 0 <= bal (with_children (e_hash e) self i f d w) t a).
  { intros t a. unfold bal; simpl. rewrite fget_set. destruct (t =? _).
    - unfold tk_balance, fgetd; simpl. lia.
    - apply (Hb w t a G). }
  destruct NP. constructor; simpl; auto; try lia.
  - unfold tadmin; simpl. rewrite fget_set_same. reflexivity.
  - split; [lia|]. apply Z.add_nonneg_nonneg; [apply HB|apply dr_pos].
  - split; [lia|]. apply Z.add_nonneg_nonneg; [apply HB|apply dr_pos].
  - unfold supply; simpl. rewrite fget_set_same. unfold tk_supply; simpl. lia.
  - unfold I128_MAX; lia.
Qed.

Lemma pool_same_tokensD w w' c p p' : w_tok w' = w_tok w -> PoolD w c p ->
  p_ta p' = p_ta p -> p_tb p' = p_tb p -> p_share p' = p_share p -> p_total p' = p_total p ->
  p_ra p' = p_ra p -> p_rb p' = p_rb p ->
  vbps (p_fee p') && vbps (p_maxslip p') && vbps (p_maxspread p') && vbps (p_maxref p') = true ->
  PoolD w' c p'.
Proof.
  intros E I E1 E2 E3 E4 E5 E6 V. destruct I.
  constructor; rewrite ?(bal_wtok w w'), ?(supply_wtok w w'), ?(tadmin_wtok w w') by auto;
    rewrite ?E1, ?E2, ?E3, ?E4, ?E5, ?E6; auto.
Qed.

Lemma pool_config_invD e c self a1 a2 a3 a4 a5 a6 w u w' p :
  pool_update_config e c self a1 a2 a3 a4 a5 a6 w = Ok (u, w') ->
  fget self (w_pool w) = Some p -> PoolD w self p ->
  exists p', fget self (w_pool w') = Some p' /\ PoolD w' self p'.
Proof.
  unfold pool_update_config. intros H Ep I. rstep H. winv.
  match goal with R : fget self (w_pool w) = Some ?q |- _ => rewrite Ep in R; inversion R; subst q end.
  eexists. split; [simpl; apply fget_set_same|].
  eapply pool_same_tokensD; [|exact I|..]; simpl; auto.
  pose proof (pz_bps _ _ _ I). unfold vbps_o, opt_or in *. destruct a2, a4, a5, a6; lia.
Qed.

Lemma pool_update_invD e c self h w u w' p :
  pool_update e c self h w = Ok (u, w') ->
  fget self (w_pool w) = Some p -> PoolD w self p ->
  exists p', fget self (w_pool w') = Some p' /\ PoolD w' self p'.
Proof.
  intros H Ep I. apply pool_update_ok in H. subst w'. exists p. split; [exact Ep|].
  eapply pool_same_tokensD; [|exact I|..]; simpl; auto. apply I.
Qed.

Lemma pool_upgrade_invD e c self h d w u w' p :
  pool_upgrade e c self h d w = Ok (u, w') ->
  fget self (w_pool w) = Some p -> PoolD w self p ->
  exists p', fget self (w_pool w') = Some p' /\ PoolD w' self p'.
Proof.
  unfold pool_upgrade. intros H Ep I. rstep H. winv.
  match goal with R : fget self (w_pool w) = Some ?q |- _ => rewrite Ep in R; inversion R; subst q end.
  eexists. split; [simpl; apply fget_set_same|].
  eapply pool_same_tokensD; [|exact I|..]; simpl; auto. apply I.
Qed.

Lemma hI_poolD w w' c p : UT c w w' -> Ext w w' -> fget c (w_code w) = Some KPool -> PoolD w c p -> PoolD w' c p.
Proof. intros U _ _ I. eapply PoolD_UT; eauto. Qed.

Lemma any_swap_poolsD e c p u o a mi ms dl mf w r w' :
  any_swap e c p u o a mi ms dl mf w = Ok (r, w') -> Good w -> not_pool w c -> AllPoolD w -> AllPoolD w'.
Proof.
  intros H G N A. 
  pose proof (framek_any_swap _ _ _ _ _ _ _ _ _ _ _ _ _ H G) as [G' [X' _]].
  pose proof (sc_any_swap _ _ _ _ _ _ _ _ _ _ _ _ _ H) as Sc. unfold SameCode in Sc.
  unfold any_swap in H. apply mbind_ok in H. destruct H as [w0 [w1 [E H]]].
  apply mget_ok in E. inversion E; subst w0 w1; clear E.
  destruct (fget p (w_code w)) as [[]|] eqn:Ec; try discriminate; intros c' x Hx.
  - destruct (Z.eq_dec c' p) as [->|Ne].
    + pose proof H as H0. apply pool_swap_ok in H0. destruct H0 as [_ [_ [_ [_ H0]]]].
      unfold do_swap in H0. apply mbind_ok in H0. destruct H0 as [q [? [H0 _]]]. winv.
      eapply pool_swap_invD in H; eauto.
      * destruct H as [p' [E1 E2]]. rewrite Hx in E1. inversion E1; subst. auto.
      * intros ->. destruct (N p eq_refl). contradiction.
    + pose proof (frame_pool_swap _ _ _ _ _ _ _ _ _ _ _ _ _ H) as F.
      destruct (F G) as [_ [_ [_ [_ [_ U]]]]]; [intros s Es; inversion Es; subst; auto|].
      pose proof (gd_cpool _ G' _ _ Hx) as Hc. rewrite Sc in Hc.
      eapply (kind_keep w_pool KPool PoolD gd_cpool (fun _ _ _ H => ut_pool _ _ _ H) hI_poolD w w' c'); eauto; [congruence|].
      intros. eapply U; eauto. congruence.
  - pose proof (frame_stable_swap _ _ _ _ _ _ _ _ _ _ _ _ _ H) as F.
    destruct (F G) as [_ [_ [_ [_ [_ U]]]]]; [intros s Es; inversion Es; subst; auto|].
    pose proof (gd_cpool _ G' _ _ Hx) as Hc. rewrite Sc in Hc.
    eapply (kind_keep w_pool KPool PoolD gd_cpool (fun _ _ _ H => ut_pool _ _ _ H) hI_poolD w w' c'); eauto; [congruence|].
    intros. eapply U; eauto. congruence.
Qed.

Lemma hop_swaps_poolsD e self f r ops ms dl mf : forall amt w x w',
  hop_swaps e self f r ops amt ms dl mf w = Ok (x, w') -> Good w ->
  fget self (w_code w) = Some KHop -> AllPoolD w -> AllPoolD w'.
Proof.
  induction ops as [|o ops IH]; simpl; intros amt w x w' H G C A.
  - rstep H. auto.
  - apply mbind_ok in H. destruct H as [p [w1 [H1 H]]]. apply pure_fact_pool_by_pair in H1. subst w1.
    apply mbind_ok in H. destruct H as [v [w2 [H2 H]]].
    pose proof (framek_any_swap _ _ _ _ _ _ _ _ _ _ _ _ _ H2 G) as [G' [X' _]].
    eapply IH; [exact H|exact G'|apply (ex_code _ _ X'); auto|].
    eapply any_swap_poolsD; eauto. intros a' E. inversion E; subst. split; congruence.
Qed.

Lemma pool_provide_invD e c self sender da mina db minb custom dl w u w' p :
  pool_provide e c self sender da mina db minb custom dl w = Ok (u, w') -> Good w -> c <> Some self ->
  fget self (w_pool w) = Some p -> PoolD w self p ->
  exists p', fget self (w_pool w') = Some p' /\ PoolD w' self p'.
Proof.
  intros H G N Ep I. pose proof (enter_first _ _ _ _ _ _ H) as C.
  pose proof (fun q => pool_provide_fits _ _ _ _ _ _ _ _ _ _ _ _ _ q H) as Fit.
  apply pool_provide_ok in H. destruct H as [_ [A [_ [p0 [xa [xb [a [b [w1 [w2 [w4 E]]]]]]]]]]].
  pose proof (authed_ne _ _ _ _ _ _ G C N A) as Ns.
  pose proof (pe_pool _ _ _ _ _ _ _ _ _ _ _ _ _ _ _ _ _ _ E) as Ep0. rewrite Ep in Ep0. inversion Ep0; subst p0.
  eapply provide_invD; eauto.
Qed.

Lemma pool_withdraw_invD e c self sender share mina minb dl w r w' p :
  pool_withdraw e c self sender share mina minb dl w = Ok (r, w') -> Good w -> c <> Some self ->
  fget self (w_pool w) = Some p -> PoolD w self p ->
  exists p', fget self (w_pool w') = Some p' /\ PoolD w' self p'.
Proof.
  intros H G N Ep I. pose proof (enter_first _ _ _ _ _ _ H) as C. destruct r as [a b].
  apply pool_withdraw_ok in H. destruct H as [_ [A [p0 [ratio [w1 [w2 [w3 [w4 E]]]]]]]].
  pose proof (authed_ne _ _ _ _ _ _ G C N A) as Ns.
  pose proof (we_pool _ _ _ _ _ _ _ _ _ _ _ _ _ _ _ _ E) as Ep0. rewrite Ep in Ep0. inversion Ep0; subst p0.
  eapply withdraw_invD; eauto.
Qed.

Lemma pool_all_stepD e k w w' : exec e k w = Ok (tt, w') -> Good w -> AllPoolD w -> AllPoolD w'.
Proof.
  intros H G A.
  assert (OWN : forall c, (exists p', fget c (w_pool w') = Some p' /\ PoolD w' c p') ->
    forall x', fget c (w_pool w') = Some x' -> PoolD w' c x').
  { intros c [p' [E1 E2]] x' Hx. rewrite Hx in E1. inversion E1; subst; auto. }
  destruct (routed k) eqn:R.
  { destruct k; try discriminate R; simpl in H; apply drop_ok in H; destruct H as [r H].
    - unfold hop_swap in H. rstep H. winv. eapply hop_swaps_poolsD; eauto.
    - apply trader_trade_ok in H. destruct H as [dd [amt [C [_ [_ [_ [_ [_ [_ H]]]]]]]]].
      eapply any_swap_poolsD; eauto. intros a' E. inversion E; subst. split; congruence. }
  refine (kind_step w_pool KPool PoolD gd_cpool (fun _ _ _ H => ut_pool _ _ _ H) hI_poolD e k w w' H G A _ _).
  - intros c [T|[T _]] C; [|congruence]. apply OWN.
    pose proof (exec_tkind _ _ _ _ _ H T) as TK. rewrite C in TK.
    destruct k; simpl in T, TK; inversion T; try discriminate TK; subst; simpl in H; try discriminate R;
      try (apply drop_ok in H; destruct H as [r H]).
    all: try (destruct (fget c (w_pool w)) as [p0|] eqn:Ep;
      [|exfalso; match type of H with ?m = _ => unfold pool_provide, pool_swap, do_swap, pool_withdraw, pool_update_config, pool_update, pool_upgrade in H end;
        rstep H; winv; congruence]; pose proof (A _ _ Ep) as I).
    + eapply pool_initialize_invD; eauto.
    + eapply pool_provide_invD; eauto; discriminate.
    + eapply pool_swap_invD; eauto; discriminate.
    + eapply pool_withdraw_invD; eauto; discriminate.
    + eapply pool_config_invD; eauto.
    + eapply pool_update_invD; eauto.
    + eapply pool_upgrade_invD; eauto.
  - intros c x' D G' C Hx.
    assert (NoP : fget c (w_pool w) = None).
    { destruct (fget c (w_pool w)) eqn:E; auto. apply (gd_cpool _ G) in E. congruence. }
    destruct k; try discriminate D; deploy_cases H.
    1-5: subst w'; simpl in Hx; rewrite ?fget_set in Hx; try congruence.
    + destruct (Z.eqb_spec c p); congruence.
    + match goal with Q : match ty with Xyk => _ | StableT => _ end |- _ => rename Q into Hm end.
      subst. rename Hm into H.
      match goal with Q : fget (e_hash e f (SPair (i_ta i) (i_tb i))) (w_code w) = None |- _ => rename Q into Hn end.
      match goal with Q : 0 <= e_hash e f (SPair (i_ta i) (i_tb i)) |- _ => rename Q into Hp end.
      pose proof (Good_newcode _ (kind_of ty) _ Hp Hn G) as G1.
      simpl in Hx.
      destruct ty; simpl in H, G1.
      * pose proof (pool_initialize_invD _ _ _ _ _ _ _ _ _ _ H G1) as [q [E1 E2]].
        apply pool_initialize_ok in H. destruct H as [_ [_ [_ [_ [_ H]]]]]. cbv zeta in H.
        destruct (Z.eq_dec c (e_hash e f (SPair (i_ta i) (i_tb i)))) as [->|Ne].
        -- rewrite Hx in E1. inversion E1; subst q. eapply pool_same_tokensD; [|exact E2|..]; auto. apply E2.
        -- rewrite H in Hx. simpl in Hx. rewrite fget_set_other in Hx by auto. congruence.
      * destruct H as [a [_ H]]. apply stable_initialize_ok in H.
        destruct H as [? [? [? [? [? [? [? [? [? [? [? [? H]]]]]]]]]]]]. cbv zeta in H. subst.
        simpl in Hx. congruence.
Qed.

Lemma pool_timeD w n s : AllPoolD w -> AllPoolD (set_time w n s).
Proof. intros A c x Hx. apply A in Hx. eapply pool_same_tokensD; [|exact Hx|..]; auto. apply Hx. Qed.


End Drift.
