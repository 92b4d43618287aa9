(** Exact conditions under which the factory creates a pool (C136). *)
From Coq Require Import ZArith List Bool Lia.
From Coq Require Import ZifyBool.
From Verif Require Import Base FMap Decimal DecimalProofs Curve World Token TokenProofs Frame Stake Pool PoolProofs
  Stable StableProofs Rewards Vest Factory Router System SysFrame SysInv SysPool SysStable SysSupply
  SysVest SysStake SysRewards Script Runs SysFact Props_Token Props_Pool Props_Stable Props_Vest Props_Stake Props_Factory
  Props_Live Props_LiveTok.
Import ListNotations.
Open Scope Z_scope.

(** No contract lives at [a]. *)
Definition vacant (w : World) (a : Addr) : Prop := 0 <= a /\ fget a (w_code w) = None.
Definition is_bps (x : Z) : Prop := 0 <= x <= 10000.

(** The three new addresses: pool, share token and staking contract. *)
Definition room_for (w : World) (p sh st ta tb : Addr) : Prop :=
  vacant w p /\ vacant w sh /\ vacant w st /\ sh <> p /\ st <> p /\ sh <> st /\ sh <> ta /\ sh <> tb.

Lemma deploy_runs a k w : 0 <= a -> fget a (w_code w) = None -> deploy a k w = Ok (tt, set_code w (fset a k (w_code w))).
Proof.
  intros P N. unfold deploy. rewrite (run_bind _ _ _ w w) by reflexivity.
  rewrite (run_bind _ _ _ tt w); [reflexivity|]. apply run_guard. unfold fmem. rewrite N. lia.
Qed.
Lemma fmem_none {V} a (m : fmap V) : fget a m = None -> negb (fmem a m) = true.
Proof. unfold fmem. intros ->. reflexivity. Qed.

Lemma children_run e self i factory dec w : NewPool (e_hash e) self i factory dec w -> i_maxc i <> 0 ->
  exists w1, deploy_share e self (i_ta i) (i_tb i) dec w = Ok (e_hash e self (SPair (i_ta i) (i_tb i)), w1) /\
    deploy_stake_of e self (i_admin i) (e_hash e self (SPair (i_ta i) (i_tb i))) (i_minbond i) (i_minreward i) (i_manager i) factory (i_maxc i) w1
      = Ok (e_hash e self SEmpty, with_children (e_hash e) self i factory dec w).
Proof.
  intros [N1 N2 N3 [N4 N5] N6 N7 N8 N9 N10 N11 N12] Mc.
  set (sh := e_hash e self (SPair (i_ta i) (i_tb i))) in *. set (st := e_hash e self SEmpty) in *.
  exists (set_tok (set_code w (fset sh KTok (w_code w))) (fset sh (mkToken self dec fempty fempty 0 0) (w_tok w))). split.
  - unfold deploy_share. fold sh. rewrite (run_bind _ _ _ tt w) by (apply run_guard; lia).
    unfold tok_deploy. erewrite run_bind; [reflexivity|].
    rewrite (run_bind _ _ _ tt _ (deploy_runs sh KTok w N4 N6)).
    erewrite run_bind by (apply run_guard; lia). reflexivity.
  - unfold deploy_stake_of. fold st.
    erewrite run_bind by (apply deploy_runs; [exact N5|]; simpl; rewrite fget_set_other by congruence; exact N7).
    erewrite run_bind; [reflexivity|]. unfold stake_initialize.
    erewrite run_bind by (apply run_enter; simpl; apply fget_set_same).
    erewrite run_bind by reflexivity.
    erewrite run_bind by (apply run_guard; apply fmem_none; exact N9).
    erewrite run_bind by (apply run_guard; lia). erewrite run_bind by (apply run_guard; lia).
    erewrite run_bind by (apply run_guard; lia). reflexivity.
Qed.

Lemma room_new w p kd e i factory dec : Good w -> i_ta i < i_tb i -> 0 < i_minbond i -> 0 < i_minreward i -> 0 <= dec <= 18 ->
  room_for w p (e_hash e p (SPair (i_ta i) (i_tb i))) (e_hash e p SEmpty) (i_ta i) (i_tb i) ->
  NewPool (e_hash e) p i factory dec (set_code w (fset p kd (w_code w))).
Proof.
  intros G L M1 M2 D [[A1 A2] [[B1 B2] [[C1 C2] [E1 [E2 [E3 [E4 E5]]]]]]].
  constructor; auto; simpl; try (rewrite fget_set_other; auto).
  destruct (fget (e_hash e p SEmpty) (w_stake w)) eqn:F; auto. apply (gd_cstake _ G) in F. congruence.
Qed.
Lemma new_room w p kd e i factory dec : vacant w p ->
  NewPool (e_hash e) p i factory dec (set_code w (fset p kd (w_code w))) ->
  room_for w p (e_hash e p (SPair (i_ta i) (i_tb i))) (e_hash e p SEmpty) (i_ta i) (i_tb i).
Proof.
  intros V [N1 N2 N3 [N4 N5] N6 N7 N8 N9 N10 N11 N12]. simpl in N6, N7. rewrite fget_set in N6, N7.
  destruct (Z.eqb_spec (e_hash e p (SPair (i_ta i) (i_tb i))) p); [discriminate|].
  destruct (Z.eqb_spec (e_hash e p SEmpty) p); [discriminate|].
  unfold room_for, vacant. repeat split; auto; try apply V.
Qed.

Lemma zmem_iff a l : zmem a l = true <-> In a l.
Proof.
  split; [apply zmem_in'|]. intros I. unfold zmem. apply existsb_exists. exists a. split; [exact I|apply Z.eqb_refl].
Qed.
Lemma initialize_maxc e self i factory dec ds mf w u w' : pool_initialize e self i factory dec ds mf w = Ok (u, w') -> i_maxc i <> 0.
Proof.
  unfold pool_initialize. intros X. rstep X.
  match goal with K : deploy_stake_of _ _ _ _ _ _ _ _ _ _ = _ |- _ => unfold deploy_stake_of in K; rstep K end.
  match goal with K : stake_initialize _ _ _ _ _ _ _ _ _ = _ |- _ => unfold stake_initialize in K; rstep K end. lia.
Qed.
Lemma sinitialize_maxc e self i factory amp mf w u w' : stable_initialize e self i factory amp mf w = Ok (u, w') -> i_maxc i <> 0.
Proof.
  unfold stable_initialize. intros X. rstep X.
  match goal with K : deploy_stake_of _ _ _ _ _ _ _ _ _ _ = _ |- _ => unfold deploy_stake_of in K; rstep K end.
  match goal with K : stake_initialize _ _ _ _ _ _ _ _ _ = _ |- _ => unfold stake_initialize in K; rstep K end. lia.
Qed.

Theorem C136_xyk_creation_succeeds_iff H w e self f u i amp ds mf : reachable H w -> fact_at w self f ->
  let p := e_hash e self (SPair (i_ta i) (i_tb i)) in
  (exists r w', fact_create e None self u i Xyk amp ds mf w = Ok (r, w')) <->
  (signs e u = true /\ In u (f_white f) /\ i_ta i < i_tb i /\
   0 < i_minbond i /\ 0 < i_minreward i /\ i_maxc i <> 0 /\ 0 <= f_lpdec f <= 18 /\
   is_bps (i_maxslip i) /\ is_bps (i_maxspread i) /\ is_bps (i_maxref i) /\ is_bps ds /\ is_bps mf /\ 0 <= i_fee i <= mf /\
   room_for w p (e_hash e p (SPair (i_ta i) (i_tb i))) (e_hash e p SEmpty) (i_ta i) (i_tb i)).
Proof.
  intros R E p. pose proof (reach_good _ _ R) as G. pose proof (gd_cfact _ G _ _ E) as Hc. unfold is_bps. split.
  - intros [r [w' X]]. apply fact_create_ok in X.
    destruct X as [f0 [w1 [w2 [Cf [Ef [Au [Wh [Lt [P1 [P2 [Ep [Pp [Np [E1 [Hm E2]]]]]]]]]]]]]]].
    unfold fact_at in E. rewrite E in Ef. inversion Ef; subst f0. rewrite authed_none in Au.
    pose proof (initialize_maxc _ _ _ _ _ _ _ _ _ _ Hm) as Mc.
    apply pool_initialize_ok in Hm. destruct Hm as [C1 [_ [Bp [Fe [NP _]]]]]. unfold vbps in Bp.
    pose proof (np_dec _ _ _ _ _ _ NP) as D. subst w1 r.
    assert (V : vacant w p) by (split; [exact Pp|exact Np]).
    pose proof (new_room _ _ _ _ _ _ _ V NP). apply zmem_iff in Wh.
    split; [exact Au|]. split; [exact Wh|]. split; [exact Lt|]. split; [lia|]. split; [lia|]. split; [exact Mc|].
    repeat (split; [lia|]). assumption.
  - intros [Sg [Wh [Lt [P1 [P2 [Mc [D [B1 [B2 [B3 [B4 [B5 [B6 Rm]]]]]]]]]]]]].
    pose proof (room_new w p KPool e i self (f_lpdec f) G Lt P1 P2 D Rm) as NP.
    destruct (proj1 Rm) as [Pp Np].
    unfold fact_create. rewrite (run_bind _ _ _ tt w) by (apply run_enter; auto).
    rewrite (run_bind _ _ _ tt w) by (apply run_auth; rewrite authed_none; auto).
    rewrite (run_bind _ _ _ tt w) by (apply run_guard; reflexivity).
    rewrite (run_bind _ _ _ f w) by (unfold get_fact, fact_at in *; rewrite E; reflexivity).
    rewrite (run_bind _ _ _ tt w) by (apply run_guard; apply zmem_iff; auto).
    rewrite (run_bind _ _ _ tt w) by (apply run_guard; lia).
    rewrite (run_bind _ _ _ tt w) by (apply run_guard; lia).
    rewrite (run_bind _ _ _ tt w) by (apply run_guard; lia).
    cbv zeta. fold p. set (w1 := set_code w (fset p KPool (w_code w))) in *.
    rewrite (run_bind _ _ _ tt w1) by (apply deploy_runs; auto).
    rewrite (run_bind _ _ _ tt w1) by (apply run_guard; unfold vbps; lia).
    destruct (children_run _ _ _ _ _ _ NP Mc) as [w2 [X1 X2]].
    assert (X : exists w3, pool_initialize e p i self (f_lpdec f) ds mf w1 = Ok (tt, w3)).
    { unfold pool_initialize. rewrite (run_bind _ _ _ tt w1) by (apply run_enter; simpl; apply fget_set_same).
      rewrite (run_bind _ _ _ w1 w1) by reflexivity.
      rewrite (run_bind _ _ _ tt w1).
      2:{ apply run_guard, fmem_none. simpl. destruct (fget p (w_pool w)) eqn:F; auto. apply (gd_cpool _ G) in F. congruence. }
      rewrite (run_bind _ _ _ tt w1) by (apply run_guard; unfold vbps; lia).
      rewrite (run_bind _ _ _ tt w1) by (apply run_guard; lia).
      rewrite (run_bind _ _ _ tt w1) by (apply run_guard; lia).
      rewrite (run_bind _ _ _ _ _ X1). rewrite (run_bind _ _ _ _ _ X2). eexists. reflexivity. }
    destruct X as [w3 X]. rewrite (run_bind _ _ _ tt w3) by exact X. eexists _, _. reflexivity.
Qed.
Print Assumptions C136_xyk_creation_succeeds_iff.

Theorem C136_stable_creation_succeeds_iff H w e self f u i amp ds mf : reachable H w -> fact_at w self f ->
  let p := e_hash e self (SPair (i_ta i) (i_tb i)) in
  (exists r w', fact_create e None self u i StableT amp ds mf w = Ok (r, w')) <->
  (signs e u = true /\ In u (f_white f) /\ i_ta i < i_tb i /\ is_tok w (i_ta i) /\ is_tok w (i_tb i) /\
   0 < i_minbond i /\ 0 < i_minreward i /\ i_maxc i <> 0 /\ (exists a, amp = Some a /\ 1 <= a <= 1000000) /\
   is_bps (i_maxslip i) /\ is_bps (i_defslip i) /\ is_bps (i_maxspread i) /\ is_bps (i_maxref i) /\ is_bps ds /\ is_bps mf /\
   0 <= i_fee i <= mf /\
   room_for w p (e_hash e p (SPair (i_ta i) (i_tb i))) (e_hash e p SEmpty) (i_ta i) (i_tb i)).
Proof.
  intros R E p. pose proof (reach_good _ _ R) as G. pose proof (gd_cfact _ G _ _ E) as Hc. unfold is_bps. split.
  - intros [r [w' X]].
    assert (Bq : vbps (i_fee i) && vbps (i_maxslip i) && vbps (i_maxspread i) && vbps (i_maxref i) && vbps ds && vbps mf = true).
    { unfold fact_create in X. rstep X. auto. }
    apply fact_create_ok in X.
    destruct X as [f0 [w1 [w2 [Cf [Ef [Au [Wh [Lt [P1 [P2 [Ep [Pp [Np [E1 [Hm E2]]]]]]]]]]]]]]].
    unfold fact_at in E. rewrite E in Ef. inversion Ef; subst f0. rewrite authed_none in Au.
    destruct Hm as [a [-> Hm]].
    pose proof (sinitialize_maxc _ _ _ _ _ _ _ _ _ Hm) as Mc.
    apply stable_initialize_ok in Hm. destruct Hm as [C1 [_ [Bp [Fe [A1 [A2 [A3 [pa [pb [T1 [T2 [NP _]]]]]]]]]]]]. unfold vbps in Bp, Bq.
    subst w1 r. assert (V : vacant w p) by (split; [exact Pp|exact Np]).
    pose proof (new_room _ _ _ _ _ _ _ V NP). apply zmem_iff in Wh. unfold MAX_AMP in A2.
    assert (K1 : is_tok w (i_ta i)). { unfold tdec in T1. simpl in T1. destruct (fget (i_ta i) (w_tok w)) eqn:F; [|discriminate]. eexists; eauto. }
    assert (K2 : is_tok w (i_tb i)). { unfold tdec in T2. simpl in T2. destruct (fget (i_tb i) (w_tok w)) eqn:F; [|discriminate]. eexists; eauto. }
    split; [exact Au|]. split; [exact Wh|]. split; [exact Lt|]. split; [exact K1|]. split; [exact K2|]. split; [lia|]. split; [lia|].
    split; [exact Mc|]. split; [exists a; split; [reflexivity|lia]|].
    repeat (split; [lia|]). assumption.
  - intros [Sg [Wh [Lt [[ka K1] [[kb K2] [P1 [P2 [Mc [[a [-> A]] [B1 [B2 [B3 [B4 [B5 [B6 [B7 Rm]]]]]]]]]]]]]]]].
    pose proof (tg_dec _ (gd_tok _ G _ _ K1)) as D1. pose proof (tg_dec _ (gd_tok _ G _ _ K2)) as D2.
    pose proof (room_new w p KStable e i self (if t_dec kb <? t_dec ka then t_dec ka else t_dec kb) G Lt P1 P2
      ltac:(destruct (t_dec kb <? t_dec ka); assumption) Rm) as NP.
    destruct (proj1 Rm) as [Pp Np].
    unfold fact_create. rewrite (run_bind _ _ _ tt w) by (apply run_enter; auto).
    rewrite (run_bind _ _ _ tt w) by (apply run_auth; rewrite authed_none; auto).
    rewrite (run_bind _ _ _ tt w) by (apply run_guard; reflexivity).
    rewrite (run_bind _ _ _ f w) by (unfold get_fact, fact_at in *; rewrite E; reflexivity).
    rewrite (run_bind _ _ _ tt w) by (apply run_guard; apply zmem_iff; auto).
    rewrite (run_bind _ _ _ tt w) by (apply run_guard; lia).
    rewrite (run_bind _ _ _ tt w) by (apply run_guard; lia).
    rewrite (run_bind _ _ _ tt w) by (apply run_guard; lia).
    cbv zeta. fold p. set (w1 := set_code w (fset p KStable (w_code w))) in *.
    rewrite (run_bind _ _ _ tt w1) by (apply deploy_runs; auto).
    rewrite (run_bind _ _ _ tt w1) by (apply run_guard; unfold vbps; lia).
    destruct (children_run _ _ _ _ _ _ NP Mc) as [w2 [X1 X2]].
    assert (X : exists w3, stable_initialize e p i self a mf w1 = Ok (tt, w3)).
    { unfold stable_initialize. rewrite (run_bind _ _ _ tt w1) by (apply run_enter; simpl; apply fget_set_same).
      rewrite (run_bind _ _ _ w1 w1) by reflexivity.
      rewrite (run_bind _ _ _ tt w1).
      2:{ apply run_guard, fmem_none. simpl. destruct (fget p (w_stable w)) eqn:F; auto. apply (gd_cstable _ G) in F. congruence. }
      rewrite (run_bind _ _ _ tt w1) by (apply run_guard; unfold vbps; lia).
      rewrite (run_bind _ _ _ tt w1) by (apply run_guard; lia).
      rewrite (run_bind _ _ _ tt w1) by (apply run_guard; lia).
      rewrite (run_bind _ _ _ (t_dec ka) w1).
      2:{ unfold tok_decimals. rewrite (run_bind _ _ _ ka w1) by (apply run_get_tok; exact K1). reflexivity. }
      rewrite (run_bind _ _ _ (t_dec kb) w1).
      2:{ unfold tok_decimals. rewrite (run_bind _ _ _ kb w1) by (apply run_get_tok; exact K2). reflexivity. }
      cbv zeta. rewrite (run_bind _ _ _ _ _ X1). rewrite (run_bind _ _ _ _ _ X2).
      erewrite run_bind by apply run_now.
      erewrite run_bind by (apply run_guard; unfold MAX_AMP; lia).
      erewrite run_bind by (apply run_lift; apply chk_ok; unfold in_u64, U64_MAX, AMP_PRECISION; lia). eexists. reflexivity. }
    destruct X as [w3 X]. rewrite (run_bind _ _ _ tt w3) by exact X. eexists _, _. reflexivity.
Qed.
Print Assumptions C136_stable_creation_succeeds_iff.
