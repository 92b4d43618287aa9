(** Stable pools with a token that is written to harm them (C237, C238). *)
From Coq Require Import ZArith List Bool Lia.
From Coq Require Import ZifyBool.
From Verif Require Import Base FMap Decimal DecimalProofs World Token TokenProofs Frame Pool PoolProofs Foreign Hostile
  Stake Stable StableProofs Rewards Vest Factory Router System SysFrame SysInv SysPool SysStable SysSupply SysFact Script Runs
  Props_Token Props_Pool Props_Stable Props_StableCases Props_Foreign Props_Foreign2 Props_Hostile.
Import ListNotations.
Open Scope Z_scope.

Lemma lside_flip p offer x y buy : l_ta p <> l_tb p -> lside p offer x y buy -> lside p buy y x offer.
Proof. unfold lside. intros N [[-> [-> [-> ->]]]|[-> [M [-> [-> ->]]]]]; [right|left]; auto. Qed.

Theorem C237_hostile_stable_swap tr bq dq e c self sender offer amt mi ms dl mf w ret w' p h r s t :
  confined self h (l_share p) tr bq dq -> sound self (l_share p) w -> sender <> self -> stable_at w self p -> l_ta p <> l_tb p ->
  0 <= l_fee p <= 10000 -> lside p h r s t -> backed w self h r (l_share p) (l_total p) ->
  stable_swap_host tr bq e c self sender offer amt mi ms dl mf w = Ok (ret, w') ->
  exists p' r' s', stable_at w' self p' /\ lsame_tokens p p' /\ l_total p' = l_total p /\ lside p' h r' s' t /\
    backed w' self h r' (l_share p) (l_total p) /\
    (offer = h -> r' = r + amt /\ bal w h self + amt <= bal w' h self) /\
    (offer <> h -> 0 <= ret <= r - r' /\ 0 <= r' /\ bal w h self - (r - r') <= bal w' h self).
Proof.
  intros F Sn Ns Hp Nt Fe Sd [B Sp] X. unfold stable_swap_host in X. rstep X. winv.
  match goal with R : stable_do_swap_host _ _ _ _ _ _ _ _ _ _ _ = _ |- _ => rename R into H end.
  unfold stable_do_swap_host in H. apply mbind_ok in H. destruct H as [p0 [w0 [H0 H]]].
  apply get_stable_ok in H0. destruct H0 as [Hp0 ->]. unfold stable_at in *. rewrite Hp in Hp0. inversion Hp0; subst p0. clear Hp0.
  rstep H.
  match goal with G : (offer =? _) || _ = true |- _ => rename G into Ho end.
  match goal with Q : _ = Ok (ret, w') |- _ => rename Q into H end.
  remember (offer =? l_ta p) as isa eqn:Ei.
  assert (E1 : (if isa then (l_ra p, l_rb p) else (l_rb p, l_ra p)) = (l_res p offer, l_oth p offer)).
  { unfold l_res, l_oth. rewrite <- Ei. destruct isa; reflexivity. }
  assert (E2 : (if isa then (l_ta p, l_tb p) else (l_tb p, l_ta p)) = (offer, l_buy p offer)).
  { unfold l_buy. rewrite <- Ei. destruct isa; f_equal; lia. }
  rewrite E1 in H. destruct (if isa then (l_preca p, l_precb p) else (l_precb p, l_preca p)) as [ps pb].
  cbv beta iota zeta in H. rstep H.
  match goal with z : (Z * Z * Z)%type |- _ => destruct z as [[rt sp] cm] end.
  match goal with Q : _ = Ok (ret, w') |- _ => rename Q into H end. cbv beta iota zeta in H. rstep H.
  match goal with Q : _ = Ok (ret, w') |- _ => rename Q into H end. rewrite E2 in H. cbv beta iota zeta in H.
  apply mbind_ok in H. destruct H as [b0 [v0 [D5 H]]].
  apply mbind_ok in H. destruct H as [[] [v1 [D6 H]]].
  apply mbind_ok in H. destruct H as [b1 [v2 [D7 H]]].
  apply mbind_ok in H. destruct H as [rv [v2' [Q H]]]. apply mlift_ok in Q. destruct Q as [rv' [Q Er]]. inversion Er; subst rv' v2'; clear Er.
  apply sub_i_ok in Q. destruct Q as [-> _].
  apply mbind_ok in H. destruct H as [[] [v3 [D8 H]]].
  apply mbind_ok in H. destruct H as [[] [v4 [D9 H]]].
  rstep H. winv.
  match goal with Q : stable_compute_swap _ _ _ _ _ _ _ _ = Ok _ |- _ => apply stable_compute_swap_ok in Q; destruct Q as [ny SN] end.
  pose proof (sm_ny _ _ _ _ _ _ _ _ _ _ _ _ SN) as Ny. pose proof (sm_sum _ _ _ _ _ _ _ _ _ _ _ _ SN) as Sm.
  pose proof (sm_comm _ _ _ _ _ _ _ _ _ _ _ _ SN) as Cm.
  match type of Cm with _ = Z.quot (?g * _) _ => pose proof (comm_range g (l_fee p) ltac:(lia) Fe) as Cr end. rewrite <- Cm in Cr.
  replace (l_oth p offer - cm - rt) with (l_oth p offer - (rt + cm)) by lia.
  destruct (Z.eq_dec offer h) as [->|No].
  - destruct (lside_eq _ _ _ _ _ Sd) as [Q1 [Q2 Q3]].
    destruct (own_bq _ _ _ _ _ _ _ _ _ F D5) as [-> ->]. apply (own_tr _ _ _ _ _ _ _ _ _ _ _ _ F Sn) in D6. destruct D6 as [D6 S6].
    destruct (moved_leaves _ _ (l_share p) _ _ _ _ Ns D6 S6) as [L1 Eb].
    destruct (own_bq _ _ _ _ _ _ _ _ _ F D7) as [-> ->].
    assert (Nb : l_buy p h <> h). { rewrite <- Q3. destruct Sd as [[-> [-> _]]|[-> [? [-> _]]]]; auto. }
    pose proof (cf_tr _ _ _ _ _ _ F _ _ _ _ _ _ _ S6 Nb D8) as L2. pose proof (cf_tr _ _ _ _ _ _ F _ _ _ _ _ _ _ (lv_sound _ _ _ _ _ L2) Nb D9) as L3.
    pose proof (leaves_trans _ _ _ _ _ _ (leaves_trans _ _ _ _ _ _ L1 L2) L3) as L.
    pose proof (lv_bal _ _ _ _ _ L2). pose proof (lv_bal _ _ _ _ _ L3). pose proof (lv_sup _ _ _ _ _ L).
    simpl. rewrite fget_set_same. rewrite Eb. replace (bal w h self + amt - bal w h self) with amt by lia.
    rewrite <- Q1, <- Q2 in *.
    eexists _, (r + amt), (s - (rt + cm)). split; [reflexivity|]. unfold lsame_tokens, backed.
    change (bal (set_stable v4 _)) with (bal v4). change (supply (set_stable v4 _)) with (supply v4).
    assert (T : forall q, (q = (if h =? l_ta p then set_l_res p (r + amt) (s - (rt + cm)) else set_l_res p (s - (rt + cm)) (r + amt))) ->
       (l_ta q = l_ta p /\ l_tb q = l_tb p /\ l_share q = l_share p) /\ l_total q = l_total p /\ lside q h (r + amt) (s - (rt + cm)) t).
    { intros q ->. unfold lside in *. destruct (Z.eqb_spec h (l_ta p)); cbn; intuition congruence. }
    destruct (T _ eq_refl) as [T1 [T2 T3]]. split; [exact T1|]. split; [exact T2|]. split; [exact T3|].
    split; [lia|]. split; [intros _; split; [reflexivity|]; lia|]. intros Q. congruence.
  - assert (Eo : offer = t). { destruct Sd as [[-> [-> _]]|[-> [? [-> _]]]]; lia. }
    subst offer. pose proof (lside_flip _ _ _ _ _ Nt Sd) as Sf. destruct (lside_eq _ _ _ _ _ Sf) as [Q1 [Q2 Q3]].
    pose proof (cf_bq _ _ _ _ _ _ F _ _ _ _ Sn No D5) as L1. pose proof (cf_tr _ _ _ _ _ _ F _ _ _ _ _ _ _ (lv_sound _ _ _ _ _ L1) No D6) as L2.
    pose proof (cf_bq _ _ _ _ _ _ F _ _ _ _ (lv_sound _ _ _ _ _ L2) No D7) as L3.
    pose proof (leaves_trans _ _ _ _ _ _ (leaves_trans _ _ _ _ _ _ L1 L2) L3) as L.
    rewrite <- Q3 in D8, D9. apply (own_tr _ _ _ _ _ _ _ _ _ _ _ _ F (lv_sound _ _ _ _ _ L)) in D8. destruct D8 as [D8 Sn8].
    apply (own_tr _ _ _ _ _ _ _ _ _ _ _ _ F Sn8) in D9. destruct D9 as [D9 _].
    destruct (moved_out _ _ _ _ _ _ (l_share p) D8) as [_ [_ [S1 [S2 S3]]]]. destruct (moved_out _ _ _ _ _ _ (l_share p) D9) as [_ [_ [S4 [S5 S6]]]].
    pose proof (lv_bal _ _ _ _ _ L). pose proof (lv_sup _ _ _ _ _ L).
    simpl. rewrite fget_set_same. rewrite <- Q1, <- Q2 in *.
    eexists _, (r - (rt + cm)), (s + (b1 - b0)). split; [reflexivity|]. unfold lsame_tokens, backed.
    change (bal (set_stable v4 _)) with (bal v4). change (supply (set_stable v4 _)) with (supply v4).
    assert (T : forall q, (q = (if t =? l_ta p then set_l_res p (s + (b1 - b0)) (r - (rt + cm)) else set_l_res p (r - (rt + cm)) (s + (b1 - b0)))) ->
       (l_ta q = l_ta p /\ l_tb q = l_tb p /\ l_share q = l_share p) /\ l_total q = l_total p /\ lside q h (r - (rt + cm)) (s + (b1 - b0)) t).
    { intros q ->. unfold lside in *. destruct (Z.eqb_spec t (l_ta p)); cbn; intuition congruence. }
    destruct (T _ eq_refl) as [T1 [T2 T3]]. split; [exact T1|]. split; [exact T2|]. split; [exact T3|].
    split; [lia|]. split; [intros Q; congruence|]. intros _. lia.
Qed.
Print Assumptions C237_hostile_stable_swap.

Lemma frame_stable_burn_shares e self a : safe (Frame e (Some self) KStable) (stable_burn_shares e self a).
Proof. unfold stable_burn_shares. frame_tac. Qed.

Definition lpart_of (p : Stable) (h a1 a2 : Z) : Z := if h =? l_ta p then a1 else a2.

Theorem C237_hostile_stable_withdrawal tr bq dq e c self sender share mina minb dl w a1 a2 w' p h r s t :
  confined self h (l_share p) tr bq dq -> sound self (l_share p) w -> stable_at w self p -> l_ta p <> l_tb p -> h <> l_share p -> lside p h r s t ->
  0 <= l_ra p -> 0 <= l_rb p -> 0 < l_total p -> backed w self h r (l_share p) (l_total p) ->
  stable_withdraw_with tr e c self sender share mina minb dl w = Ok ((a1, a2), w') ->
  exists p' r' s' b, stable_at w' self p' /\ lsame_tokens p p' /\ l_total p' = l_total p - share /\ lside p' h r' s' t /\
    backed w' self h r' (l_share p) (l_total p') /\
    b = lpart_of p h a1 a2 /\ lpart_of p h mina minb <= b /\ r' = r - b /\
    (* pro rata, rounded against the one who leaves *)
    l_total p * b <= r * share /\ r * share * 10 ^ 18 < l_total p * (b + 1) * 10 ^ 18 + l_total p * r /\
    r * l_total p' <= r' * l_total p.
Proof.
  intros F Sn Hp Nt Nh Sd Pa Pb Pt [B Sp] X. unfold stable_withdraw_with in X. rstep X. winv.
  match goal with R : tok_transfer _ _ (l_share _) _ _ _ _ = Ok _ |- _ => rename R into T1 end. repeat match goal with u : unit |- _ => destruct u end.
  destruct (transfer_sound self (l_share p) _ _ _ _ _ _ _ T1 Sn) as [Gd1 [_ Ad1]]. tinv. destr_pair.
  repeat match goal with u : unit |- _ => destruct u end.
  match goal with R : fget self (w_stable w) = Some ?q |- _ => unfold stable_at in Hp; rewrite Hp in R; inversion R; subst q; clear R end.
  match goal with R : Moved (l_share p) _ _ _ _ ?wx |- _ => rename R into M1; rename wx into W1 end.
  match goal with R : stable_burn_shares _ _ _ _ = Ok (_, ?wx) |- _ => pose proof R as T2; apply stable_burn_shares_ok in R;
    destruct R as [p3 [W2 [Ep3 [Bn [Eend Etok]]]]]; rename wx into W2' end.
  rewrite (mv_stable _ _ _ _ _ _ M1), Hp in Ep3. inversion Ep3; subst p3; clear Ep3.
  match goal with R : tr _ _ (l_ta p) _ _ _ _ = Ok (_, ?wx) |- _ => rename R into X3; rename wx into W3 end.
  match goal with R : tr _ _ (l_tb p) _ _ _ _ = Ok (_, ?wx) |- _ => rename R into X4; rename wx into W4 end.
  match goal with R : fget self (w_stable W4) = Some _ |- _ => rename R into Hp4 end.
  assert (Ps : 0 < share) by (cbn [vpos] in *; lia).
  match goal with R : i_mul_dec (l_ra p) _ = Ok ?q |- _ => rename q into a1 end. match goal with R : i_mul_dec (l_rb p) _ = Ok ?q |- _ => rename q into a2 end.
  match goal with R : dec_from_ratio _ _ = Ok _ |- _ => apply dec_from_ratio_pos in R; [destruct R as [Qa [Qc Qb]]|cbn [vpos] in *; lia|exact Pt] end.
  repeat match goal with R : i_mul_dec _ _ = Ok _ |- _ => apply i_mul_dec_pos in R; [|lia|lia]; destruct R as [? [_ ?]] end.
  cbn [vpos] in *. unfold DEC in *.
  match goal with R : 1000000000000000000 * a1 <= _ < _ |- _ => destruct (ratio_part _ _ _ _ _ Pt Pa Qb R) as [U1 U2] end.
  match goal with R : 1000000000000000000 * a2 <= _ < _ |- _ => destruct (ratio_part _ _ _ _ _ Pt Pb Qb R) as [U3 U4] end.
  assert (S2 : sound self (l_share p) W2').
  { assert (C1 : fget self (w_code W1) = Some KStable) by (rewrite (mv_rest _ _ _ _ _ _ M1); assumption).
    pose proof (frame_stable_burn_shares _ _ _ _ _ _ T2 Gd1) as Fb. destruct Fb as [G2 [X2 _]]; [intros s0 E; inversion E; subst; exact C1|].
    split; [exact G2|]. split; [exists KStable; apply (ex_code _ _ X2); exact C1|].
    transitivity (tadmin W2 (l_share p)); [unfold tadmin; rewrite Etok; reflexivity|]. rewrite (bn_adm _ _ _ _ _ Bn). exact Ad1. }
  destruct (pay_share _ _ _ _ _ _ _ _ _ _ _ _ F S2 X3) as [_ [A1 [A2 [A3 S3]]]]. destruct (pay_share _ _ _ _ _ _ _ _ _ _ _ _ F S3 X4) as [_ [B1 [B2 [B3 _]]]].
  rewrite B1, A1, Eend in Hp4. injection Hp4 as <-.
  assert (E0 : bal W2' h self = bal w h self).
  { rewrite (bal_wtok W2 W2') by auto. rewrite (bn_bal _ _ _ _ _ Bn), (mv_bal _ _ _ _ _ _ M1).
    destruct (Z.eqb_spec h (l_share p)); [contradiction|]. cbn [andb]. unfold ind. lia. }
  assert (E1 : supply W2' (l_share p) = supply w (l_share p) - share).
  { transitivity (supply W2 (l_share p)); [unfold supply; rewrite Etok; reflexivity|].
    rewrite (bn_sup _ _ _ _ _ Bn), (mv_sup _ _ _ _ _ _ M1), Z.eqb_refl. unfold ind. lia. }
  match goal with |- context [set_l_res ?q ?x ?y] => set (pz := set_l_res q x y) end.
  assert (Fin : exists r' s' b, lside pz h r' s' t /\ b = lpart_of p h a1 a2 /\ r' = r - b /\ l_total p * b <= r * share /\
     r * share * 10 ^ 18 < l_total p * (b + 1) * 10 ^ 18 + l_total p * r /\ lpart_of p h mina minb <= b /\ 0 <= b /\
     bal W2' h self - b <= bal W4 h self).
  { unfold lpart_of. destruct Sd as [[-> [-> [-> ->]]]|[-> [N [-> [-> ->]]]]].
    - rewrite Z.eqb_refl in *. destruct (Z.eqb_spec (l_tb p) (l_ta p)); [congruence|].
      exists (l_ra p - a1), (l_rb p - a2), a1. split; [left; repeat split; reflexivity|]. repeat split; first [assumption|lia].
    - destruct (Z.eqb_spec (l_ta p) (l_tb p)); [congruence|]. destruct (Z.eqb_spec (l_tb p) (l_ta p)); [congruence|]. rewrite Z.eqb_refl in *.
      exists (l_rb p - a2), (l_ra p - a1), a2. split; [right; repeat split; auto|]. repeat split; first [assumption|lia]. }
  destruct Fin as [r' [s' [b [F1 [F2 [F3 [F4 [F5 [F6 [F7 F8]]]]]]]]]].
  exists pz, r', s', b. split; [unfold stable_at; simpl; apply fget_set_same|]. unfold lsame_tokens, backed.
  change (bal (set_stable W4 _)) with (bal W4). change (supply (set_stable W4 _)) with (supply W4).
  split; [repeat split; reflexivity|]. split; [reflexivity|]. split; [exact F1|].
  change (l_total pz) with (l_total p - share).
  split; [lia|]. split; [exact F2|]. split; [exact F6|]. split; [exact F3|]. split; [exact F4|]. split; [exact F5|].
  subst r'. clear - F4. nia.
Qed.
Print Assumptions C237_hostile_stable_withdrawal.

Lemma step_dq self h sh tr bq dq t w x w' : confined self h sh tr bq dq -> sound self sh w -> dq t w = Ok (x, w') -> leaves self h sh w w'.
Proof.
  intros F Sn X. destruct (Z.eq_dec t h) as [->|Nt]; [|eapply cf_dq; eauto].
  rewrite (cf_dq_own _ _ _ _ _ _ F) in X. unfold tok_decimals in X. rstep X. winv. apply leaves_refl. exact Sn.
Qed.
Lemma step_paid self h sh tr bq dq e t from amt w w' : confined self h sh tr bq dq -> from <> self -> sound self sh w ->
  tr e (Some self) t from self amt w = Ok (tt, w') -> leaves self h sh w w' /\ (t = h -> bal w' h self = bal w h self + amt).
Proof.
  intros F N Sn X. destruct (Z.eq_dec t h) as [->|Nt]; [|split; [eapply cf_tr; eauto|congruence]].
  apply (own_tr _ _ _ _ _ _ _ _ _ _ _ _ F Sn) in X. destruct X as [X S']. destruct (moved_leaves _ _ _ _ _ _ _ N X S'). auto.
Qed.

(** a deposit: what was there is booked and still there, and the shares stay counted *)
Theorem C237_hostile_stable_deposit tr bq dq e c self sender da db custom dl mins w w' p h r s t :
  confined self h (l_share p) tr bq dq -> sound self (l_share p) w -> sender <> self -> stable_at w self p -> l_ta p <> l_tb p -> h <> l_share p ->
  lside p h r s t -> backed w self h r (l_share p) (l_total p) ->
  stable_provide_host tr bq dq e c self sender da db custom dl mins w = Ok (tt, w') ->
  exists p' r' s', stable_at w' self p' /\ lsame_tokens p p' /\ lside p' h r' s' t /\
    backed w' self h r' (l_share p) (l_total p') /\ bal w h self + lpart_of p h da db <= r' /\ l_total p <= l_total p'.
Proof.
  intros F Sn Ns Hp Nt Nh Sd [B Sp] X. unfold stable_provide_host in X. rstep X. winv.
  repeat match goal with u : unit |- _ => destruct u end.
  match goal with K : fget self (w_stable w) = Some ?q |- _ => unfold stable_at in Hp; rewrite Hp in K; inversion K; subst q; clear K end.
  match goal with
  | Y1 : dq (l_ta p) w = Ok (_, ?u1), Y2 : dq (l_tb p) ?u1 = Ok (_, ?u2), Y3 : bq (l_ta p) self ?u2 = Ok (_, ?u3), Y4 : bq (l_tb p) self ?u3 = Ok (_, ?u4),
    Y5 : tr e (Some self) (l_ta p) sender self da ?u4 = Ok (tt, ?u5), Y6 : tr e (Some self) (l_tb p) sender self db ?u5 = Ok (tt, ?u6),
    Y7 : bq (l_ta p) self ?u6 = Ok (_, ?u7), Y8 : bq (l_tb p) self ?u7 = Ok (_, ?u8),
    Y9 : bq (l_ta p) self ?u8 = Ok (?fa0, ?u9), Y10 : bq (l_tb p) self ?u9 = Ok (?fb0, ?u10), Y11 : stable_mint_shares e self sender _ ?u10 = Ok (tt, ?u11) |- _ =>
    pose proof (step_dq _ _ _ _ _ _ _ _ _ _ F Sn Y1) as L1; pose proof (step_dq _ _ _ _ _ _ _ _ _ _ F (lv_sound _ _ _ _ _ L1) Y2) as L2;
    destruct (step_bq _ _ _ _ _ _ _ _ _ _ F (lv_sound _ _ _ _ _ L2) Y3) as [L3 _]; destruct (step_bq _ _ _ _ _ _ _ _ _ _ F (lv_sound _ _ _ _ _ L3) Y4) as [L4 _];
    destruct (step_paid _ _ _ _ _ _ _ _ _ _ _ _ F Ns (lv_sound _ _ _ _ _ L4) Y5) as [L5 P5];
    destruct (step_paid _ _ _ _ _ _ _ _ _ _ _ _ F Ns (lv_sound _ _ _ _ _ L5) Y6) as [L6 P6];
    destruct (step_bq _ _ _ _ _ _ _ _ _ _ F (lv_sound _ _ _ _ _ L6) Y7) as [L7 _]; destruct (step_bq _ _ _ _ _ _ _ _ _ _ F (lv_sound _ _ _ _ _ L7) Y8) as [L8 _];
    destruct (step_bq _ _ _ _ _ _ _ _ _ _ F (lv_sound _ _ _ _ _ L8) Y9) as [L9 Q9]; destruct (step_bq _ _ _ _ _ _ _ _ _ _ F (lv_sound _ _ _ _ _ L9) Y10) as [L10 Q10];
    apply stable_mint_shares_ok in Y11; destruct Y11 as [p3 [W4 [Ep3 [Mt [Eend [Etok _]]]]]]; rename u10 into W3; rename u11 into W5; rename fa0 into fa; rename fb0 into fb
  end.
  pose proof (leaves_trans _ _ _ _ _ _ (leaves_trans _ _ _ _ _ _ L1 L2) (leaves_trans _ _ _ _ _ _ L3 L4)) as La.
  pose proof (leaves_trans _ _ _ _ _ _ (leaves_trans _ _ _ _ _ _ L5 L6) (leaves_trans _ _ _ _ _ _ L7 L8)) as Lb.
  pose proof (leaves_trans _ _ _ _ _ _ (leaves_trans _ _ _ _ _ _ La Lb) (leaves_trans _ _ _ _ _ _ L9 L10)) as L.
  rewrite (lv_stable _ _ _ _ _ L), Hp in Ep3. injection Ep3 as <-.
  match goal with K : fget self (w_stable W5) = Some ?q |- _ => rewrite Eend in K; injection K as <- end.
  destruct (minted_state _ _ _ _ _ _ _ self Nh Mt Etok) as [Z1 Z2]. pose proof (mt_pos _ _ _ _ _ Mt) as Pm.
  pose proof (lv_bal _ _ _ _ _ La). pose proof (lv_bal _ _ _ _ _ L7). pose proof (lv_bal _ _ _ _ _ L8). pose proof (lv_bal _ _ _ _ _ L9). pose proof (lv_bal _ _ _ _ _ L10).
  pose proof (lv_bal _ _ _ _ _ L5). pose proof (lv_bal _ _ _ _ _ L6). pose proof (lv_sup _ _ _ _ _ L).
  set (f := if h =? l_ta p then fa else fb).
  assert (Ef : bal w h self + lpart_of p h da db <= f <= bal W3 h self).
  { unfold f, lpart_of. destruct (Z.eqb_spec h (l_ta p)) as [E|E].
    - rewrite (Q9 (eq_sym E)). specialize (P5 (eq_sym E)). lia.
    - assert (E2 : l_tb p = h) by (destruct Sd as [[S1 _]|[S1 _]]; congruence). rewrite (Q10 E2). specialize (P6 E2). lia. }
  match goal with |- context [set_l_res ?q ?x ?y] => set (pz := set_l_res q x y) end.
  exists pz, f, (if h =? l_ta p then fb else fa). split; [unfold stable_at; simpl; apply fget_set_same|]. unfold lsame_tokens, backed.
  change (bal (set_stable W5 _)) with (bal W5). change (supply (set_stable W5 _)) with (supply W5).
  split; [repeat split; reflexivity|]. split.
  { unfold lside, f in *. change (l_ta pz) with (l_ta p). change (l_tb pz) with (l_tb p). change (l_ra pz) with fa. change (l_rb pz) with fb.
    destruct (Z.eqb_spec h (l_ta p)); intuition congruence. }
  match goal with M : Minted _ _ ?d _ _ |- _ => change (l_total pz) with (l_total p + d) end.
  split; [lia|]. split; lia.
Qed.
Print Assumptions C237_hostile_stable_deposit.

(** Token 2 of the stable pool 20 turns bad: its transfers move nothing of it but send 100 units of token 1 from -4 to -5, and the
    balance it reports grows by ten millions with every such transfer. *)
Definition bad2tr : Transfer := script_tr 1 badf.
Definition bad2g : Addr -> World -> list (Env * Call) * Z := fun _ w => ([], 10 ^ 7 + 10 ^ 5 * bal w 1 (-5)).
Definition bad2bq : Balance := script_bq 1 bad2g.
Definition bad2dq : Decimals := script_dq 1 (fun _ _ => ([], 7)).
Lemma bad2_confined : confined 20 1 (l_share lP0) bad2tr bad2bq bad2dq.
Proof.
  apply C236_scripts_are_confined; [|constructor|constructor]. intros. constructor; [|constructor]. cbn. split; [discriminate|reflexivity].
Qed.
Definition badW : World := after (stable_provide_host bad2tr bad2bq bad2dq (env_of [-4]) None 20 (-4) 1 1 None None None yW).

Example C237_example : lside lP0 1 (10 ^ 7) (10 ^ 7) 2 /\ sound 20 (l_share lP0) yW /\ backed yW 20 1 (10 ^ 7) (l_share lP0) (l_total lP0) /\
  confined 20 1 (l_share lP0) bad2tr bad2bq bad2dq /\
  (exists w', stable_swap_host bad2tr bad2bq (env_of [-4]) None 20 (-4) 2 1000000 None None None None yW = Ok (982858, w') /\
     stable_at w' 20 (yP 19999000 9014185 20000000)) /\
  (exists w', stable_swap_host bad2tr bad2bq (env_of [-4]) None 20 (-4) 1 1000000 None None None None yW = Ok (982858, w') /\
     stable_at w' 20 (yP 19999000 11000000 9014185)) /\
  (exists w', stable_withdraw_with bad2tr (env_of [-2]) None 20 (-2) 1999900 1 1 None yW = Ok ((1000000, 1000000), w')) /\
  (exists w', stable_provide_host bad2tr bad2bq bad2dq (env_of [-4]) None 20 (-4) 1 1 None None None yW = Ok (tt, w') /\
     stable_at w' 20 (yP 29998500 10000001 20000000)).
Proof.
  split; [left; vm_compute; repeat split|].
  split.
  { split; [apply (reach_good _ _ yW_reach)|]. split; [exists KStable|]; vm_compute; reflexivity. }
  split; [vm_compute; split; discriminate|]. split; [apply bad2_confined|].
  split; [eexists; split; vm_compute; reflexivity|]. split; [eexists; split; vm_compute; reflexivity|].
  split; [eexists; vm_compute; reflexivity|]. eexists; split; vm_compute; reflexivity.
Qed.

(** C238 fails for stable pools, where one token alone is enough to earn shares: with one unit of each token the owner of the bad token
    gets a third of all shares and with them a third of token 1. *)
Theorem C238_no_dilution_by_a_bad_token_refuted : exists w1 w2,
  reachable xH yW /\ confined 20 1 (l_share lP0) bad2tr bad2bq bad2dq /\ stable_at yW 20 lP0 /\
  stable_provide_host bad2tr bad2bq bad2dq (env_of [-4]) None 20 (-4) 1 1 None None None yW = Ok (tt, w1) /\
  stable_at w1 20 (yP 29998500 10000001 20000000) /\ l_ra lP0 * 29998500 > 10000001 * l_total lP0 /\
  stable_withdraw_with bad2tr (env_of [-4]) None 20 (-4) 9999500 1 1 None w1 = Ok ((3333333, 6666666), w2) /\
  bal w2 1 (-4) = bal yW 1 (-4) - 1 - 200 + 3333333 /\ bal w2 1 20 = bal yW 1 20 + 1 - 3333333.
Proof.
  exists badW, (after (stable_withdraw_with bad2tr (env_of [-4]) None 20 (-4) 9999500 1 1 None badW)).
  split; [apply yW_reach|]. split; [apply bad2_confined|]. split; [apply yW_pool|].
  split; [vm_compute; reflexivity|]. split; [vm_compute; reflexivity|]. split; [vm_compute; reflexivity|].
  split; [vm_compute; reflexivity|]. split; vm_compute; reflexivity.
Qed.
Print Assumptions C238_no_dilution_by_a_bad_token_refuted.
