(** The pool invariant holds for every pool in every reachable ledger. *)
From Coq Require Import ZArith List Bool Lia.
From Coq Require Import ZifyBool.
From Verif Require Import Base FMap Decimal DecimalProofs Curve World Token TokenProofs Frame Stake Pool PoolProofs
  Stable Rewards Vest Factory Router System SysFrame SysInv.
Import ListNotations.
Open Scope Z_scope.

Definition AllPool : World -> Prop := AllI w_pool PoolInv.

Lemma pool_swap_ok e c self sender o a mi ms dl mf w r w' :
  pool_swap e c self sender o a mi ms dl mf w = Ok (r, w') ->
  fget self (w_code w) = Some KPool /\ authed e c sender = true /\ 0 < a /\
  (forall d, dl = Some d -> w_now w <= d) /\
  do_swap e self sender o a mi ms mf w = Ok (r, w').
Proof.
  unfold pool_swap. intros H. apply mbind_ok in H. destruct H as [? [? [H1 H]]]. winv.
  apply mbind_ok in H. destruct H as [? [? [H2 H]]]. winv.
  apply mbind_ok in H. destruct H as [? [? [H3 H]]]. apply mguard_ok in H3. destruct H3 as [H3 E3]. inversion E3; subst.
  apply mbind_ok in H. destruct H as [? [? [H4 H]]]. winv. simpl in H3.
  split; [auto|]. split; [auto|]. split; [lia|]. split; auto.
Qed.

Lemma pool_swap_inv e c self sender o a mi ms dl mf w r w' p :
  pool_swap e c self sender o a mi ms dl mf w = Ok (r, w') -> Good w -> c <> Some self ->
  fget self (w_pool w) = Some p -> PoolInv w self p ->
  exists p', fget self (w_pool w') = Some p' /\ PoolInv w' self p'.
Proof.
  intros H G N Ep I. apply pool_swap_ok in H. destruct H as [C [A [Pa [_ H]]]].
  pose proof (authed_ne _ _ _ _ _ _ G C N A) as Ns.
  apply do_swap_ok in H; auto. destruct H as [p0 [r0 [w1 [w2 [w3 E]]]]].
  pose proof (se_pool _ _ _ _ _ _ _ _ _ _ _ _ _ _ _ _ E) as Ep0. rewrite Ep in Ep0. inversion Ep0; subst p0.
  eapply swap_inv; eauto.
Qed.

Lemma pool_initialize_inv e self i f d ds mf w u w' :
  pool_initialize e self i f d ds mf w = Ok (u, w') -> Good w ->
  exists p, fget self (w_pool w') = Some p /\ PoolInv w' self p.
Proof.
  intros H G. apply pool_initialize_ok in H. destruct H as [C [Np [V [Lf [NP E]]]]].
  cbv zeta in E. subst w'. eexists. split; [simpl; apply fget_set_same|].
  assert (Hb : forall w0 t a, Good w0 -> 0 <= bal w0 t a) by (intros; apply good_bal; auto).
  assert (NT : fget (e_hash e self (SPair (i_ta i) (i_tb i))) (w_tok w) = None).
  { destruct (fget _ (w_tok w)) eqn:Et; auto. apply (gd_ctok _ G) in Et. rewrite (np_share _ _ _ _ _ _ NP) in Et. discriminate. }
  assert (HB : forall t a, 0 <= bal (with_children (e_hash e) self i f d w) t a).
  { intros t a. unfold bal; simpl. rewrite fget_set. destruct (t =? _).
    - unfold tk_balance, fgetd; simpl. lia.
    - apply (Hb w t a G). }
  destruct NP. constructor; simpl; auto; try lia.
  - unfold tadmin; simpl. rewrite fget_set_same. reflexivity.
  - split; [lia|]. apply HB.
  - split; [lia|]. apply HB.
  - unfold supply; simpl. rewrite fget_set_same. unfold tk_supply; simpl. lia.
  - unfold I128_MAX; lia.
Qed.

Lemma pool_same_tokens w w' c p p' : w_tok w' = w_tok w -> PoolInv w c p ->
  p_ta p' = p_ta p -> p_tb p' = p_tb p -> p_share p' = p_share p -> p_total p' = p_total p ->
  p_ra p' = p_ra p -> p_rb p' = p_rb p ->
  vbps (p_fee p') && vbps (p_maxslip p') && vbps (p_maxspread p') && vbps (p_maxref p') = true ->
  PoolInv w' c p'.
Proof.
  intros E I E1 E2 E3 E4 E5 E6 V. destruct I.
  constructor; rewrite ?(bal_wtok w w'), ?(supply_wtok w w'), ?(tadmin_wtok w w') by auto;
    rewrite ?E1, ?E2, ?E3, ?E4, ?E5, ?E6; auto.
Qed.

Lemma pool_config_inv e c self a1 a2 a3 a4 a5 a6 w u w' p :
  pool_update_config e c self a1 a2 a3 a4 a5 a6 w = Ok (u, w') ->
  fget self (w_pool w) = Some p -> PoolInv w self p ->
  exists p', fget self (w_pool w') = Some p' /\ PoolInv w' self p'.
Proof.
  unfold pool_update_config. intros H Ep I. rstep H. winv.
  match goal with R : fget self (w_pool w) = Some ?q |- _ => rewrite Ep in R; inversion R; subst q end.
  eexists. split; [simpl; apply fget_set_same|].
  eapply pool_same_tokens; [|exact I|..]; simpl; auto.
  pose proof (pi_bps _ _ _ I). unfold vbps_o, opt_or in *. destruct a2, a4, a5, a6; lia.
Qed.

Lemma pool_update_inv e c self h w u w' p :
  pool_update e c self h w = Ok (u, w') ->
  fget self (w_pool w) = Some p -> PoolInv w self p ->
  exists p', fget self (w_pool w') = Some p' /\ PoolInv w' self p'.
Proof.
  intros H Ep I. apply pool_update_ok in H. subst w'. exists p. split; [exact Ep|].
  eapply pool_same_tokens; [|exact I|..]; simpl; auto. apply I.
Qed.

Lemma pool_upgrade_inv e c self h d w u w' p :
  pool_upgrade e c self h d w = Ok (u, w') ->
  fget self (w_pool w) = Some p -> PoolInv w self p ->
  exists p', fget self (w_pool w') = Some p' /\ PoolInv w' self p'.
Proof.
  unfold pool_upgrade. intros H Ep I. rstep H. winv.
  match goal with R : fget self (w_pool w) = Some ?q |- _ => rewrite Ep in R; inversion R; subst q end.
  eexists. split; [simpl; apply fget_set_same|].
  eapply pool_same_tokens; [|exact I|..]; simpl; auto. apply I.
Qed.

Lemma get_some_code w a (p : Pool) : Good w -> fget a (w_pool w) = Some p -> fget a (w_code w) = Some KPool.
Proof. intros G. apply (gd_cpool _ G). Qed.

Lemma hI_pool w w' c p : UT c w w' -> Ext w w' -> fget c (w_code w) = Some KPool -> PoolInv w c p -> PoolInv w' c p.
Proof. intros U _ _ I. eapply PoolInv_UT; eauto. Qed.

Definition not_pool (w : World) (c : option Addr) : Prop :=
  forall a, c = Some a -> fget a (w_code w) <> Some KPool /\ fget a (w_code w) <> Some KStable.

Lemma any_swap_pools e c p u o a mi ms dl mf w r w' :
  any_swap e c p u o a mi ms dl mf w = Ok (r, w') -> Good w -> not_pool w c -> AllPool w -> AllPool w'.
Proof.
  intros H G N A. 
  pose proof (framek_any_swap _ _ _ _ _ _ _ _ _ _ _ _ _ H G) as [G' [X' _]].
  pose proof (sc_any_swap _ _ _ _ _ _ _ _ _ _ _ _ _ H) as Sc. unfold SameCode in Sc.
  unfold any_swap in H. apply mbind_ok in H. destruct H as [w0 [w1 [E H]]].
  apply mget_ok in E. inversion E; subst w0 w1; clear E.
  destruct (fget p (w_code w)) as [[]|] eqn:Ec; try discriminate; intros c' x Hx.
  - destruct (Z.eq_dec c' p) as [->|Ne].
    + pose proof H as H0. apply pool_swap_ok in H0. destruct H0 as [_ [_ [_ [_ H0]]]].
      unfold do_swap in H0. apply mbind_ok in H0. destruct H0 as [q [? [H0 _]]]. winv.
      eapply pool_swap_inv in H; eauto.
      * destruct H as [p' [E1 E2]]. rewrite Hx in E1. inversion E1; subst. auto.
      * intros ->. destruct (N p eq_refl). contradiction.
    + pose proof (frame_pool_swap _ _ _ _ _ _ _ _ _ _ _ _ _ H) as F.
      destruct (F G) as [_ [_ [_ [_ [_ U]]]]]; [intros s Es; inversion Es; subst; auto|].
      pose proof (gd_cpool _ G' _ _ Hx) as Hc. rewrite Sc in Hc.
      eapply (kind_keep w_pool KPool PoolInv gd_cpool (fun _ _ _ H => ut_pool _ _ _ H) hI_pool w w' c'); eauto; [congruence|].
      intros. eapply U; eauto. congruence.
  - pose proof (frame_stable_swap _ _ _ _ _ _ _ _ _ _ _ _ _ H) as F.
    destruct (F G) as [_ [_ [_ [_ [_ U]]]]]; [intros s Es; inversion Es; subst; auto|].
    pose proof (gd_cpool _ G' _ _ Hx) as Hc. rewrite Sc in Hc.
    eapply (kind_keep w_pool KPool PoolInv gd_cpool (fun _ _ _ H => ut_pool _ _ _ H) hI_pool w w' c'); eauto; [congruence|].
    intros. eapply U; eauto. congruence.
Qed.

Lemma hop_swaps_pools e self f r ops ms dl mf : forall amt w x w',
  hop_swaps e self f r ops amt ms dl mf w = Ok (x, w') -> Good w ->
  fget self (w_code w) = Some KHop -> AllPool w -> AllPool w'.
Proof.
  induction ops as [|o ops IH]; simpl; intros amt w x w' H G C A.
  - rstep H. auto.
  - apply mbind_ok in H. destruct H as [p [w1 [H1 H]]]. apply pure_fact_pool_by_pair in H1. subst w1.
    apply mbind_ok in H. destruct H as [v [w2 [H2 H]]].
    pose proof (framek_any_swap _ _ _ _ _ _ _ _ _ _ _ _ _ H2 G) as [G' [X' _]].
    eapply IH; [exact H|exact G'|apply (ex_code _ _ X'); auto|].
    eapply any_swap_pools; eauto. intros a' E. inversion E; subst. split; congruence.
Qed.

Lemma pool_provide_inv e c self sender da mina db minb custom dl w u w' p :
  pool_provide e c self sender da mina db minb custom dl w = Ok (u, w') -> Good w -> c <> Some self ->
  fget self (w_pool w) = Some p -> PoolInv w self p ->
  exists p', fget self (w_pool w') = Some p' /\ PoolInv w' self p'.
Proof.
  intros H G N Ep I. pose proof (enter_first _ _ _ _ _ _ H) as C.
  pose proof (fun q => pool_provide_fits _ _ _ _ _ _ _ _ _ _ _ _ _ q H) as Fit.
  apply pool_provide_ok in H. destruct H as [_ [A [_ [p0 [xa [xb [a [b [w1 [w2 [w4 E]]]]]]]]]]].
  pose proof (authed_ne _ _ _ _ _ _ G C N A) as Ns.
  pose proof (pe_pool _ _ _ _ _ _ _ _ _ _ _ _ _ _ _ _ _ _ E) as Ep0. rewrite Ep in Ep0. inversion Ep0; subst p0.
  eapply provide_inv; eauto.
Qed.

Lemma pool_withdraw_inv e c self sender share mina minb dl w r w' p :
  pool_withdraw e c self sender share mina minb dl w = Ok (r, w') -> Good w -> c <> Some self ->
  fget self (w_pool w) = Some p -> PoolInv w self p ->
  exists p', fget self (w_pool w') = Some p' /\ PoolInv w' self p'.
Proof.
  intros H G N Ep I. pose proof (enter_first _ _ _ _ _ _ H) as C. destruct r as [a b].
  apply pool_withdraw_ok in H. destruct H as [_ [A [p0 [ratio [w1 [w2 [w3 [w4 E]]]]]]]].
  pose proof (authed_ne _ _ _ _ _ _ G C N A) as Ns.
  pose proof (we_pool _ _ _ _ _ _ _ _ _ _ _ _ _ _ _ _ E) as Ep0. rewrite Ep in Ep0. inversion Ep0; subst p0.
  eapply withdraw_inv; eauto.
Qed.

Lemma pool_all_step e k w w' : exec e k w = Ok (tt, w') -> Good w -> AllPool w -> AllPool w'.
Proof.
  intros H G A.
  assert (OWN : forall c, (exists p', fget c (w_pool w') = Some p' /\ PoolInv w' c p') ->
    forall x', fget c (w_pool w') = Some x' -> PoolInv w' c x').
  { intros c [p' [E1 E2]] x' Hx. rewrite Hx in E1. inversion E1; subst; auto. }
  destruct (routed k) eqn:R.
  { destruct k; try discriminate R; simpl in H; apply drop_ok in H; destruct H as [r H].
    - unfold hop_swap in H. rstep H. winv. eapply hop_swaps_pools; eauto.
    - apply trader_trade_ok in H. destruct H as [dd [amt [C [_ [_ [_ [_ [_ [_ H]]]]]]]]].
      eapply any_swap_pools; eauto. intros a' E. inversion E; subst. split; congruence. }
  refine (kind_step w_pool KPool PoolInv gd_cpool (fun _ _ _ H => ut_pool _ _ _ H) hI_pool e k w w' H G A _ _).
  - intros c [T|[T _]] C; [|congruence]. apply OWN.
    pose proof (exec_tkind _ _ _ _ _ H T) as TK. rewrite C in TK.
    destruct k; simpl in T, TK; inversion T; try discriminate TK; subst; simpl in H; try discriminate R;
      try (apply drop_ok in H; destruct H as [r H]).
    all: try (destruct (fget c (w_pool w)) as [p0|] eqn:Ep;
      [|exfalso; match type of H with ?m = _ => unfold pool_provide, pool_swap, do_swap, pool_withdraw, pool_update_config, pool_update, pool_upgrade in H end;
        rstep H; winv; congruence]; pose proof (A _ _ Ep) as I).
    + eapply pool_initialize_inv; eauto.
    + eapply pool_provide_inv; eauto; discriminate.
    + eapply pool_swap_inv; eauto; discriminate.
    + eapply pool_withdraw_inv; eauto; discriminate.
    + eapply pool_config_inv; eauto.
    + eapply pool_update_inv; eauto.
    + eapply pool_upgrade_inv; eauto.
  - intros c x' D G' C Hx.
    assert (NoP : fget c (w_pool w) = None).
    { destruct (fget c (w_pool w)) eqn:E; auto. apply (gd_cpool _ G) in E. congruence. }
    destruct k; try discriminate D; deploy_cases H.
    1-5: subst w'; simpl in Hx; rewrite ?fget_set in Hx; try congruence.
    + destruct (Z.eqb_spec c p); congruence.
    + match goal with Q : match ty with Xyk => _ | StableT => _ end |- _ => rename Q into Hm end.
      subst. rename Hm into H.
      match goal with Q : fget (e_hash e f (SPair (i_ta i) (i_tb i))) (w_code w) = None |- _ => rename Q into Hn end.
      match goal with Q : 0 <= e_hash e f (SPair (i_ta i) (i_tb i)) |- _ => rename Q into Hp end.
      pose proof (Good_newcode _ (kind_of ty) _ Hp Hn G) as G1.
      simpl in Hx.
      destruct ty; simpl in H, G1.
      * pose proof (pool_initialize_inv _ _ _ _ _ _ _ _ _ _ H G1) as [q [E1 E2]].
        apply pool_initialize_ok in H. destruct H as [_ [_ [_ [_ [_ H]]]]]. cbv zeta in H.
        destruct (Z.eq_dec c (e_hash e f (SPair (i_ta i) (i_tb i)))) as [->|Ne].
        -- rewrite Hx in E1. inversion E1; subst q. eapply pool_same_tokens; [|exact E2|..]; auto. apply E2.
        -- rewrite H in Hx. simpl in Hx. rewrite fget_set_other in Hx by auto. congruence.
      * destruct H as [a [_ H]]. apply stable_initialize_ok in H.
        destruct H as [? [? [? [? [? [? [? [? [? [? [? [? H]]]]]]]]]]]]. cbv zeta in H. subst.
        simpl in Hx. congruence.
Qed.

Lemma pool_time w n s : AllPool w -> AllPool (set_time w n s).
Proof. intros A c x Hx. apply A in Hx. eapply pool_same_tokens; [|exact Hx|..]; auto. apply Hx. Qed.

Theorem reach_pool H w : reachable H w -> AllPool w.
Proof.
  apply reach_inv.
  - intros c x Hx. discriminate.
  - intros e k w1 w2 _ [G _ _] X. eapply pool_all_step; eauto.
  - intros; apply pool_time; auto.
Qed.

(** ** How one transaction changes one pool *)
Record SameConf (p p' : Pool) : Prop := {
  sc_fee : p_fee p' = p_fee p; sc_feerec : p_feerec p' = p_feerec p;
  sc_maxslip : p_maxslip p' = p_maxslip p; sc_maxspread : p_maxspread p' = p_maxspread p;
  sc_maxref : p_maxref p' = p_maxref p; sc_defslip : p_defslip p' = p_defslip p;
  sc_admin : p_admin p' = p_admin p }.
Record SameIds (p p' : Pool) : Prop := {
  si_ta : p_ta p' = p_ta p; si_tb : p_tb p' = p_tb p;
  si_share : p_share p' = p_share p; si_stake : p_stake p' = p_stake p }.

(** a swap changes the reserves only, and never when one of them is 0 *)
Definition RSwap (p p' : Pool) : Prop :=
  SameConf p p' /\ SameIds p p' /\ p_total p' = p_total p /\ (p' = p \/ 0 < p_ra p /\ 0 < p_rb p).

Definition dead (p : Pool) : Prop := p_total p <> 0 /\ (p_ra p = 0 \/ p_rb p = 0).

(** the relation between a pool before and after any transaction *)
Definition RStep (e : Env) (p p' : Pool) : Prop :=
  SameIds p p' /\
  (SameConf p p' \/ signs e (p_admin p) = true /\ p_total p' = p_total p /\ p_ra p' = p_ra p /\ p_rb p' = p_rb p) /\
  (p_total p' = p_total p \/ 1000 <= p_total p') /\
  (dead p -> p_total p' = p_total p /\ p_ra p' = p_ra p /\ p_rb p' = p_rb p).

Lemma SameConf_refl p : SameConf p p. Proof. constructor; auto. Qed.
Lemma SameIds_refl p : SameIds p p. Proof. constructor; auto. Qed.
Lemma RSwap_refl p : RSwap p p.
Proof. split; [apply SameConf_refl|]. split; [apply SameIds_refl|]. auto. Qed.
Lemma SameConf_trans p q r : SameConf p q -> SameConf q r -> SameConf p r.
Proof. intros [] []. constructor; congruence. Qed.
Lemma SameIds_trans p q r : SameIds p q -> SameIds q r -> SameIds p r.
Proof. intros [] []. constructor; congruence. Qed.
Lemma RSwap_trans p q r : RSwap p q -> RSwap q r -> RSwap p r.
Proof.
  intros [A [B [C D]]] [A2 [B2 [C2 D2]]].
  split; [eapply SameConf_trans; eauto|]. split; [eapply SameIds_trans; eauto|]. split; [congruence|].
  destruct D as [->|D]; auto.
Qed.
Lemma RSwap_RStep e p p' : RSwap p p' -> RStep e p p'.
Proof.
  intros [A [B [C D]]]. split; auto. split; auto. split; auto.
  intros [N Z0]. destruct D as [->|D]; auto. lia.
Qed.

Definition PR (R : Pool -> Pool -> Prop) (w w' : World) : Prop :=
  forall c p, fget c (w_pool w) = Some p -> exists p', fget c (w_pool w') = Some p' /\ R p p'.

Lemma SwapEff_nums e self sender offer amt mi ms mf w w' ret p r w1 w2 w3 :
  SwapEff e self sender offer amt mi ms mf w w' ret p r w1 w2 w3 ->
  SwapNums (res_of p offer) (res_other p offer) amt (dec_bps (p_fee p)) r.
Proof. intros E. apply compute_swap_ok. apply (se_nums _ _ _ _ _ _ _ _ _ _ _ _ _ _ _ _ E). Qed.

(** the buying reserve is positive too: with nothing to buy the spread check divides by zero *)
Lemma swap_both_pos e self sender offer amt mi ms mf w w' ret p r w1 w2 w3 :
  SwapEff e self sender offer amt mi ms mf w w' ret p r w1 w2 w3 ->
  0 < res_of p offer /\ 0 < res_other p offer /\ 0 < cs_ret r + cs_comm r.
Proof.
  intros E. pose proof (SwapEff_nums _ _ _ _ _ _ _ _ _ _ _ _ _ _ _ _ E) as SN.
  destruct (se_spread _ _ _ _ _ _ _ _ _ _ _ _ _ _ _ _ E) as [q [Hq _]].
  apply dec_from_ratio_ok in Hq. destruct Hq as [Nz _].
  pose proof (sn_ret _ _ _ _ _ SN). pose proof (sn_comm_pos _ _ _ _ _ SN).
  pose proof (gross_bounds _ _ _ (sn_x _ _ _ _ _ SN) (sn_y _ _ _ _ _ SN) (sn_dx _ _ _ _ _ SN)) as [GB _].
  rewrite <- (sn_sum _ _ _ _ _ SN) in GB. pose proof (sn_x _ _ _ _ _ SN). lia.
Qed.

Lemma swap_RSwap e c self sender o a mi ms dl mf w r w' p :
  pool_swap e c self sender o a mi ms dl mf w = Ok (r, w') -> Good w -> c <> Some self ->
  fget self (w_pool w) = Some p -> exists p', fget self (w_pool w') = Some p' /\ RSwap p p'.
Proof.
  intros H G N Ep. apply pool_swap_ok in H. destruct H as [C [A [Pa [_ H]]]].
  pose proof (authed_ne _ _ _ _ _ _ G C N A) as Ns.
  apply do_swap_ok in H; auto. destruct H as [p0 [r0 [w1 [w2 [w3 E]]]]].
  pose proof (se_pool _ _ _ _ _ _ _ _ _ _ _ _ _ _ _ _ E) as Ep0. rewrite Ep in Ep0. inversion Ep0; subst p0.
  destruct (swap_both_pos _ _ _ _ _ _ _ _ _ _ _ _ _ _ _ _ E) as [X [Y _]].
  rewrite (se_end _ _ _ _ _ _ _ _ _ _ _ _ _ _ _ _ E). simpl. rewrite fget_set_same.
  eexists. split; [reflexivity|]. unfold set_res_for, res_of, res_other in *.
  destruct (o =? p_ta p); simpl; (split; [constructor; reflexivity|]; split; [constructor; reflexivity|]; split; [reflexivity|]; right; lia).
Qed.

Lemma any_swap_PR e c p u o a mi ms dl mf w r w' :
  any_swap e c p u o a mi ms dl mf w = Ok (r, w') -> Good w -> not_pool w c -> PR RSwap w w'.
Proof.
  intros H G N c' x Hx. unfold any_swap in H. apply mbind_ok in H. destruct H as [w0 [w1 [E H]]].
  apply mget_ok in E. inversion E; subst w0 w1; clear E.
  pose proof (gd_cpool _ G _ _ Hx) as Hc.
  destruct (fget p (w_code w)) as [[]|] eqn:Ec; try discriminate.
  - destruct (Z.eq_dec c' p) as [->|Ne].
    + eapply swap_RSwap; eauto. intros ->. destruct (N p eq_refl). contradiction.
    + pose proof (frame_pool_swap _ _ _ _ _ _ _ _ _ _ _ _ _ H) as F.
      destruct (F G) as [_ [_ [_ [_ [_ U]]]]]; [intros s Es; inversion Es; subst; auto|].
      rewrite (ut_pool _ _ _ (U _ _ Hc ltac:(congruence))). eauto using RSwap_refl.
  - pose proof (frame_stable_swap _ _ _ _ _ _ _ _ _ _ _ _ _ H) as F.
    destruct (F G) as [_ [_ [_ [_ [_ U]]]]]; [intros s Es; inversion Es; subst; auto|].
    rewrite (ut_pool _ _ _ (U _ _ Hc ltac:(congruence))). eauto using RSwap_refl.
Qed.

Lemma hop_swaps_PR e self f r ops ms dl mf : forall amt w x w',
  hop_swaps e self f r ops amt ms dl mf w = Ok (x, w') -> Good w ->
  fget self (w_code w) = Some KHop -> PR RSwap w w'.
Proof.
  induction ops as [|o ops IH]; simpl; intros amt w x w' H G C.
  - rstep H. intros c p Hp. eauto using RSwap_refl.
  - apply mbind_ok in H. destruct H as [p [w1 [H1 H]]]. apply pure_fact_pool_by_pair in H1. subst w1.
    apply mbind_ok in H. destruct H as [v [w2 [H2 H]]].
    pose proof (framek_any_swap _ _ _ _ _ _ _ _ _ _ _ _ _ H2 G) as [G' [X' _]].
    pose proof (IH _ _ _ _ H G' (ex_code _ _ X' _ _ C)) as P2.
    assert (P1 : PR RSwap w w2).
    { eapply any_swap_PR; eauto. intros a' E. inversion E; subst. split; congruence. }
    intros c q Hq. destruct (P1 _ _ Hq) as [q1 [E1 R1]]. destruct (P2 _ _ E1) as [q2 [E2 R2]].
    exists q2. split; auto. eapply RSwap_trans; eauto.
Qed.

Lemma authed_none e a : authed e None a = signs e a.
Proof. unfold authed. rewrite orb_false_r. reflexivity. Qed.

Lemma dead_no_deposit e c self sender da mina db minb custom dl w p : fget self (w_pool w) = Some p ->
  PoolInv w self p -> dead p -> forall u w', pool_provide e c self sender da mina db minb custom dl w <> Ok (u, w').
Proof.
  intros Ep I [Nt D] u w' H. apply pool_provide_ok in H. destruct H as [_ [_ [_ [p0 [xa [xb [a [b [w1 [w2 [w4 E]]]]]]]]]]].
  pose proof (pe_pool _ _ _ _ _ _ _ _ _ _ _ _ _ _ _ _ _ _ E) as Ep0. rewrite Ep in Ep0. inversion Ep0; subst p0.
  pose proof (deposit_amounts_ok _ _ _ _ _ _ _ _ _ (pe_nums _ _ _ _ _ _ _ _ _ _ _ _ _ _ _ _ _ _ E)
    ltac:(apply (pi_ra _ _ _ I)) ltac:(apply (pi_rb _ _ _ I))) as DN.
  pose proof (pi_some _ _ _ I Nt). destruct (dn_case _ _ _ _ _ _ _ _ _ DN); lia.
Qed.

Lemma i_mul_zero d a : i_mul_dec 0 d = Ok a -> a = 0.
Proof. intros H. apply i_mul_dec_ok in H. rewrite Z.mul_0_l in H. rewrite Z.quot_0_l in H by (unfold DEC; lia). auto. Qed.

Lemma dead_no_withdraw e c self sender share mina minb dl w p : fget self (w_pool w) = Some p ->
  dead p -> forall r w', pool_withdraw e c self sender share mina minb dl w <> Ok (r, w').
Proof.
  intros Ep [Nt D] [a b] w' H. apply pool_withdraw_ok in H. destruct H as [_ [_ [p0 [ratio [w1 [w2 [w3 [w4 E]]]]]]]].
  destruct E as [E1 _ E2 _ _ Ea Eb Em _ _ _ _ _ _]. rewrite Ep in E1. inversion E1; subst p0.
  destruct D as [D|D]; rewrite D in *.
  - apply i_mul_zero in Ea. lia.
  - apply i_mul_zero in Eb. lia.
Qed.

Lemma dead_no_swap e c self sender o a mi ms dl mf w p : fget self (w_pool w) = Some p -> Good w -> c <> Some self ->
  dead p -> forall r w', pool_swap e c self sender o a mi ms dl mf w <> Ok (r, w').
Proof.
  intros Ep G N [Nt D] r w' H. apply pool_swap_ok in H. destruct H as [C [A [Pa [_ H]]]].
  pose proof (authed_ne _ _ _ _ _ _ G C N A) as Ns.
  apply do_swap_ok in H; auto. destruct H as [p0 [r0 [w1 [w2 [w3 E]]]]].
  pose proof (se_pool _ _ _ _ _ _ _ _ _ _ _ _ _ _ _ _ E) as Ep0. rewrite Ep in Ep0. inversion Ep0; subst p0.
  destruct (swap_both_pos _ _ _ _ _ _ _ _ _ _ _ _ _ _ _ _ E) as [X [Y _]].
  unfold res_of, res_other in *. destruct (o =? p_ta p); lia.
Qed.

Theorem pool_step e k w w' : exec e k w = Ok (tt, w') -> Good w -> AllPool w -> PR (RStep e) w w'.
Proof.
  intros H G A c p Hp.
  pose proof (A _ _ Hp) as I.
  assert (LIFT : PR RSwap w w' -> exists p', fget c (w_pool w') = Some p' /\ RStep e p p').
  { intros P. destruct (P _ _ Hp) as [p' [E R]]. exists p'. split; auto. apply RSwap_RStep; auto. }
  destruct (routed k) eqn:R.
  { apply LIFT. destruct k; try discriminate R; simpl in H; apply drop_ok in H; destruct H as [r H].
    - unfold hop_swap in H. rstep H. winv. eapply hop_swaps_PR; eauto.
    - apply trader_trade_ok in H. destruct H as [dd [amt [C [_ [_ [_ [_ [_ [_ H]]]]]]]]].
      eapply any_swap_PR; eauto. intros a' E. inversion E; subst. split; congruence. }
  destruct (exec_framec _ _ _ _ H G) as [G' [X' [_ [_ U]]]].
  pose proof (gd_cpool _ G _ _ Hp) as Hc.
  destruct (exists_dec_acts k c KPool) as [[T|[T _]]|N]; [|congruence|].
  2:{ rewrite (ut_pool _ _ _ (U _ _ Hc N)). exists p. split; auto. apply RSwap_RStep, RSwap_refl. }
  pose proof (exec_tkind _ _ _ _ _ H T) as TK. rewrite Hc in TK.
  destruct k; simpl in T, TK; inversion T; try discriminate TK; subst; simpl in H; try discriminate R;
      try (apply drop_ok in H; destruct H as [r H]).
  - apply pool_initialize_ok in H. destruct H as [_ [Np _]]. congruence.
  - assert (ND : ~ dead p) by (intros D; eapply dead_no_deposit; eauto).
    assert (I' : exists p', fget c (w_pool w') = Some p' /\ PoolInv w' c p') by (eapply pool_provide_inv; eauto; discriminate).
    apply pool_provide_ok in H.
    destruct H as [_ [_ [_ [p0 [xa [xb [a [b [w1 [w2 [w4 E]]]]]]]]]]].
    pose proof (pe_pool _ _ _ _ _ _ _ _ _ _ _ _ _ _ _ _ _ _ E) as Ep0. rewrite Hp in Ep0. inversion Ep0; subst p0.
    destruct (pe_tot _ _ _ _ _ _ _ _ _ _ _ _ _ _ _ _ _ _ E) as [n [En Hn]].
    eexists. split; [exact En|]. destruct I' as [p' [Ep' I']]. rewrite En in Ep'. inversion Ep'; subst p'.
    split; [constructor; reflexivity|]. split; [left; constructor; reflexivity|]. split; [|tauto].
    right. destruct (pi_min _ _ _ I') as [Q|Q]; [|tauto]. exfalso.
    pose proof (pi_zero _ _ _ I' Q) as Z0. simpl in *.
    destruct Hn as [Hn|Hn]; [|lia].
    pose proof (mt_pos _ _ _ _ _ (proj1 (proj2 (proj2 Hn)))).
    destruct (pi_min _ _ _ I) as [T0|T0]; [|lia]. pose proof (pi_zero _ _ _ I T0). lia.
  - apply LIFT. intros c' q Hq. destruct (Z.eq_dec c' c) as [->|Ne].
    + eapply swap_RSwap; eauto; discriminate.
    + rewrite (ut_pool _ _ _ (U _ _ (gd_cpool _ G _ _ Hq) ltac:(intros [Q|[Q _]]; [inversion Q; congruence|discriminate]))).
      eauto using RSwap_refl.
  - assert (ND : ~ dead p) by (intros D; eapply dead_no_withdraw; eauto).
    assert (I' : exists p', fget c (w_pool w') = Some p' /\ PoolInv w' c p') by (eapply pool_withdraw_inv; eauto; discriminate).
    pose proof H as H0. destruct r as [ra rb].
    apply pool_withdraw_ok in H. destruct H as [_ [Au [p0 [ratio [w1 [w2 [w3 [w4 E]]]]]]]].
    pose proof (we_pool _ _ _ _ _ _ _ _ _ _ _ _ _ _ _ _ E) as Ep0. rewrite Hp in Ep0. inversion Ep0; subst p0.
    pose proof (we_pool' _ _ _ _ _ _ _ _ _ _ _ _ _ _ _ _ E) as En.
    eexists. split; [exact En|]. destruct I' as [p' [Ep' I']]. rewrite En in Ep'. inversion Ep'; subst p'.
    split; [constructor; reflexivity|]. split; [left; constructor; reflexivity|]. split; [|tauto].
    right. destruct (pi_min _ _ _ I') as [Q|Q]; [|tauto]. exfalso.
    pose proof (authed_ne _ None _ _ _ _ G Hc ltac:(discriminate) Au) as Ns.
    pose proof (good_supply2 w (p_share p) c _ G (not_eq_sym Ns)) as G2.
    pose proof (mv_le _ _ _ _ _ _ (we_in _ _ _ _ _ _ _ _ _ _ _ _ _ _ _ _ E)).
    pose proof (we_total _ _ _ _ _ _ _ _ _ _ _ _ _ _ _ _ E).
    pose proof (pi_sup _ _ _ I). pose proof (pi_min _ _ _ I). simpl in Q. lia.
  - unfold pool_update_config in H. rstep H. winv. 
    match goal with R : fget c (w_pool w) = Some ?q |- _ => rewrite Hp in R; inversion R; subst q end.
    simpl. rewrite fget_set_same. eexists. split; [reflexivity|]. rewrite authed_none in *.
    split; [constructor; reflexivity|]. split; [right; simpl; auto|]. simpl; auto.
  - apply pool_update_ok in H. subst w'. exists p. split; [exact Hp|]. split; [constructor; reflexivity|]. split; [left; constructor; reflexivity|]. simpl; auto.
  - unfold pool_upgrade in H. rstep H. winv. 
    match goal with R : fget c (w_pool w) = Some ?q |- _ => rewrite Hp in R; inversion R; subst q end.
    simpl. rewrite fget_set_same. eexists. split; [reflexivity|]. rewrite authed_none in *.
    split; [constructor; reflexivity|]. split; [right; simpl; auto|]. simpl; auto.
Qed.
