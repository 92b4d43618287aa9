(** Pools with a token that is written to harm them: what the holders of shares still have of the other token
    (C234, C235) and why the assumptions about the harmful token hold on the host (C236). *)
From Coq Require Import ZArith List Bool Lia.
From Coq Require Import ZifyBool.
From Verif Require Import Base FMap Decimal DecimalProofs World Token TokenProofs Frame Pool PoolProofs Foreign Hostile
  Stake Stable StableProofs Rewards Vest Factory Router System SysFrame SysInv SysPool SysStable SysSupply SysFact Script Runs
  Props_Token Props_Pool Props_PoolCases Props_Foreign Props_Market Props_Stable Props_Router Props_Factory Props_Custody.
Import ListNotations.
Open Scope Z_scope.

(** ** The assumptions *)
(** The pool at [self] is deployed and administers its share token [sh]; the ledger is well-formed (Frame.v), as it is in
    every reachable state. *)
Definition sound (self sh : Addr) (w : World) : Prop :=
  Good w /\ (exists kd, fget self (w_code w) = Some kd) /\ tadmin w sh = Some self.

(** What a call of the harmful token does to the pool at [self] with the other token [h] and share token [sh]: the
    host admits no call back into the pool, so the pool's record stays and nothing leaves the pool; and only the pool
    can mint its shares.  Everything else in the ledger may change, and in any way. *)
Record leaves (self h sh : Addr) (w w' : World) : Prop := {
  lv_pool : fget self (w_pool w') = fget self (w_pool w);
  lv_stable : fget self (w_stable w') = fget self (w_stable w);
  lv_bal : bal w h self <= bal w' h self;
  lv_sup : supply w' sh <= supply w sh;
  lv_sound : sound self sh w' }.

(** Token [h] is the repository's; about the answers of any other token nothing is known. *)
Record confined (self h sh : Addr) (tr : Transfer) (bq : Balance) (dq : Decimals) : Prop := {
  cf_tr_own : forall e from to amt w, tr e (Some self) h from to amt w = tok_transfer e (Some self) h from to amt w;
  cf_bq_own : forall w, bq h self w = tok_balance h self w;
  cf_dq_own : forall w, dq h w = tok_decimals h w;
  cf_tr : forall e t from to amt w w', sound self sh w -> t <> h -> tr e (Some self) t from to amt w = Ok (tt, w') -> leaves self h sh w w';
  cf_bq : forall t w x w', sound self sh w -> t <> h -> bq t self w = Ok (x, w') -> leaves self h sh w w';
  cf_dq : forall t w x w', sound self sh w -> t <> h -> dq t w = Ok (x, w') -> leaves self h sh w w' }.

Lemma leaves_refl self h sh w : sound self sh w -> leaves self h sh w w.
Proof. constructor; auto; lia. Qed.
Lemma leaves_trans self h sh w w1 w2 : leaves self h sh w w1 -> leaves self h sh w1 w2 -> leaves self h sh w w2.
Proof. intros [A B C D E] [A' B' C' D' E']. constructor; try congruence; try lia; assumption. Qed.

Lemma transfer_sound self sh e t from to amt w w' : tok_transfer e (Some self) t from to amt w = Ok (tt, w') -> sound self sh w -> sound self sh w'.
Proof.
  intros X [G [[kd C] A]]. pose proof X as X0. apply tok_transfer_moved in X0. destruct X0 as [_ M].
  split; [|split; [exists kd; rewrite (mv_rest _ _ _ _ _ _ M); exact C|rewrite (mv_adm _ _ _ _ _ _ M); exact A]].
  apply (frame_transfer e (Some self) kd _ _ _ _ _ _ _ X G). intros s0 E. inversion E; subst. exact C.
Qed.
Lemma own_tr self h sh tr bq dq e from to amt w w' : confined self h sh tr bq dq -> sound self sh w ->
  tr e (Some self) h from to amt w = Ok (tt, w') -> Moved h from to amt w w' /\ sound self sh w'.
Proof.
  intros F S X. rewrite (cf_tr_own _ _ _ _ _ _ F) in X. split; [apply tok_transfer_moved in X; tauto|eapply transfer_sound; eauto].
Qed.
Lemma own_bq self h sh tr bq dq w x w' : confined self h sh tr bq dq -> bq h self w = Ok (x, w') -> w' = w /\ x = bal w h self.
Proof. intros F X. rewrite (cf_bq_own _ _ _ _ _ _ F) in X. apply tok_balance_ok in X. tauto. Qed.
Lemma moved_leaves self h sh from amt w w' : from <> self -> Moved h from self amt w w' -> sound self sh w' ->
  leaves self h sh w w' /\ bal w' h self = bal w h self + amt.
Proof.
  intros N M S. pose proof (mv_pos _ _ _ _ _ _ M).
  assert (E : bal w' h self = bal w h self + amt).
  { rewrite (mv_bal _ _ _ _ _ _ M), !Z.eqb_refl. destruct (Z.eqb_spec self from); [congruence|]. cbn [andb]. unfold ind. lia. }
  split; [|exact E]. constructor; [rewrite (mv_pool _ _ _ _ _ _ M); reflexivity|rewrite (mv_rest _ _ _ _ _ _ M); reflexivity|lia
    |rewrite (mv_sup _ _ _ _ _ _ M); lia|exact S].
Qed.
Lemma moved_out self h to amt w w' sh : Moved h self to amt w w' ->
  fget self (w_pool w') = fget self (w_pool w) /\ fget self (w_stable w') = fget self (w_stable w) /\
  supply w' sh = supply w sh /\ bal w h self - amt <= bal w' h self /\ 0 <= amt.
Proof.
  intros M. pose proof (mv_pos _ _ _ _ _ _ M). split; [rewrite (mv_pool _ _ _ _ _ _ M); reflexivity|]. split; [rewrite (mv_rest _ _ _ _ _ _ M); reflexivity|].
  split; [apply (mv_sup _ _ _ _ _ _ M)|]. split; [|assumption].
  rewrite (mv_bal _ _ _ _ _ _ M), !Z.eqb_refl. cbn [andb]. unfold ind. destruct (self =? to); lia.
Qed.

(** ** C234: swaps *)
Record SwapHost (tr : Transfer) (bq : Balance) (e : Env) (self sender offer amt : Z) (w w' : World) (ret : Z)
    (p : Pool) (r : Computed) (b0 b1 : Z) (v0 v1 v2 v3 v4 : World) : Prop := {
  sh_pool : fget self (w_pool w) = Some p;
  sh_offer : offer = p_ta p \/ offer = p_tb p;
  sh_nums : SwapNums (res_of p offer) (res_other p offer) amt (dec_bps (p_fee p)) r;
  sh_ret : ret = cs_ret r;
  sh_before : bq offer self w = Ok (b0, v0);
  sh_in : tr e (Some self) offer sender self amt v0 = Ok (tt, v1);
  sh_after : bq offer self v1 = Ok (b1, v2);
  sh_out : tr e (Some self) (buy_of p offer) self sender ret v2 = Ok (tt, v3);
  sh_com : tr e (Some self) (buy_of p offer) self (p_feerec p) (cs_comm r) v3 = Ok (tt, v4);
  sh_end : w' = set_pool v4 (fset self (set_res_for p offer (res_of p offer + (b1 - b0))
             (res_other p offer - (cs_ret r + cs_comm r))) (w_pool v4)) }.
Lemma do_swap_host_ok tr bq e self sender offer amt mi ms mf w w' ret :
  do_swap_host tr bq e self sender offer amt mi ms mf w = Ok (ret, w') ->
  exists p r b0 b1 v0 v1 v2 v3 v4, SwapHost tr bq e self sender offer amt w w' ret p r b0 b1 v0 v1 v2 v3 v4.
Proof.
  unfold do_swap_host. intros H.
  apply mbind_ok in H. destruct H as [p [w0 [H0 H]]].
  apply get_pool_ok in H0. destruct H0 as [Hp ->].
  rstep H.
  match goal with G : (offer =? _) || _ = true |- _ => rename G into Ho end.
  remember (offer =? p_ta p) as isa eqn:Ei.
  assert (E1 : (if isa then (p_ra p, p_rb p) else (p_rb p, p_ra p)) = (res_of p offer, res_other p offer)).
  { unfold res_of, res_other. rewrite <- Ei. destruct isa; reflexivity. }
  assert (Eo : offer = p_ta p \/ offer = p_tb p) by (destruct isa; lia).
  assert (E2 : (if isa then (p_ta p, p_tb p) else (p_tb p, p_ta p)) = (offer, buy_of p offer)).
  { unfold buy_of. rewrite <- Ei. destruct isa; f_equal; lia. }
  match goal with R : _ = Ok (ret, w') |- _ => rename R into H end.
  rewrite E1 in H.
  apply mbind_ok in H. destruct H as [r [wr [Hc H]]]. apply mlift_ok in Hc. destruct Hc as [r' [Hc Er]].
  inversion Er; subst r' wr; clear Er.
  pose proof (compute_swap_ok _ _ _ _ _ Hc) as SN.
  rstep H.
  match goal with R : _ = Ok (ret, w') |- _ => rename R into H end.
  rewrite E2 in H. cbv beta iota zeta in H.
  apply mbind_ok in H. destruct H as [b0 [v0 [B0 H]]].
  apply mbind_ok in H. destruct H as [[] [v1 [T1 H]]].
  apply mbind_ok in H. destruct H as [b1 [v2 [B1 H]]].
  apply mbind_ok in H. destruct H as [rv [v2' [Q H]]]. apply mlift_ok in Q. destruct Q as [rv' [Q Er]]. inversion Er; subst rv' v2'; clear Er.
  apply sub_i_ok in Q.
  apply mbind_ok in H. destruct H as [[] [v3 [T2 H]]].
  apply mbind_ok in H. destruct H as [[] [v4 [T3 H]]].
  rstep H. winv.
  exists p, r, b0, b1, v0, v1, v2, v3, v4. constructor; auto.
  unfold set_res_for. rewrite (sn_ref _ _ _ _ _ SN). destruct Q as [-> _].
  replace (res_other p offer - cs_comm r - 0 - cs_ret r) with (res_other p offer - (cs_ret r + cs_comm r)) by lia. reflexivity.
Qed.

(** What is booked of [h] is there; and there are no more shares than counted. *)
Definition backed (w : World) (self h r : Z) (sh total : Z) : Prop := r <= bal w h self /\ supply w sh <= total.

Theorem C234_hostile_swap tr bq dq e c self sender offer amt mi ms dl mf w ret w' p h r s t :
  confined self h (p_share p) tr bq dq -> sound self (p_share p) w -> sender <> self -> pool_at w self p -> p_ta p <> p_tb p -> side p h r s t ->
  backed w self h r (p_share p) (p_total p) ->
  pool_swap_host tr bq e c self sender offer amt mi ms dl mf w = Ok (ret, w') ->
  exists p' r' s', pool_at w' self p' /\ same_tokens p p' /\ p_total p' = p_total p /\ side p' h r' s' t /\
    backed w' self h r' (p_share p) (p_total p) /\
    (* whoever sells [h] has paid for it *)
    (offer = h -> r' = r + amt /\ bal w h self + amt <= bal w' h self /\ r * s - (r + amt) < (r + amt) * s' <= r * s) /\
    (* whoever buys [h] gets no more than the booked reserves are good for, and the pool keeps some *)
    (offer <> h -> 0 <= ret <= r - r' /\ s * r - (s + amt) < (s + amt) * r' <= s * r /\ bal w h self - (r - r') <= bal w' h self).
Proof.
  intros F Sn Ns Hp Nt Sd [B Sp] X. unfold pool_swap_host in X. rstep X. winv.
  match goal with R : do_swap_host _ _ _ _ _ _ _ _ _ _ _ = _ |- _ => apply do_swap_host_ok in R;
    destruct R as [p0 [c0 [b0 [b1 [v0 [v1 [v2 [v3 [v4 D]]]]]]]]] end.
  destruct D as [D1 D2 D3 D4 D5 D6 D7 D8 D9 D10]. unfold pool_at in *. rewrite Hp in D1. inversion D1; subst p0. clear D1.
  pose proof (sn_x _ _ _ _ _ D3) as Px. pose proof (sn_y _ _ _ _ _ D3) as Py. pose proof (sn_dx _ _ _ _ _ D3) as Pd.
  pose proof (gross_bounds _ _ _ Px Py Pd) as [G1 G2]. pose proof (sn_sum _ _ _ _ _ D3) as Sm.
  pose proof (sn_ret _ _ _ _ _ D3) as Pr. pose proof (sn_comm_pos _ _ _ _ _ D3) as Pc.
  destruct (Z.eq_dec offer h) as [->|No].
  - destruct (side_eq _ _ _ _ _ Sd) as [E1 [E2 E3]].
    destruct (own_bq _ _ _ _ _ _ _ _ _ F D5) as [-> ->]. apply (own_tr _ _ _ _ _ _ _ _ _ _ _ _ F Sn) in D6. destruct D6 as [D6 S6].
    destruct (moved_leaves _ _ (p_share p) _ _ _ _ Ns D6 S6) as [L1 Eb].
    destruct (own_bq _ _ _ _ _ _ _ _ _ F D7) as [-> ->].
    assert (Nb : buy_of p h <> h).
    { rewrite <- E3. destruct Sd as [[-> [-> _]]|[-> [? [-> _]]]]; auto. }
    pose proof (cf_tr _ _ _ _ _ _ F _ _ _ _ _ _ _ S6 Nb D8) as L2. pose proof (cf_tr _ _ _ _ _ _ F _ _ _ _ _ _ _ (lv_sound _ _ _ _ _ L2) Nb D9) as L3.
    pose proof (leaves_trans _ _ _ _ _ _ (leaves_trans _ _ _ _ _ _ L1 L2) L3) as L.
    pose proof (lv_bal _ _ _ _ _ L2). pose proof (lv_bal _ _ _ _ _ L3). pose proof (lv_sup _ _ _ _ _ L).
    subst w'. simpl. rewrite fget_set_same. rewrite Eb. replace (bal w h self + amt - bal w h self) with amt by lia.
    eexists _, (r + amt), (s - gross_out r s amt). split; [reflexivity|]. unfold same_tokens, backed.
    change (bal (set_pool v4 _)) with (bal v4). change (supply (set_pool v4 _)) with (supply v4).
    rewrite <- E1, <- E2 in *. rewrite Sm. unfold set_res_for.
    assert (T : forall q, (q = (if h =? p_ta p then set_p_res p (r + amt) (s - gross_out r s amt) else set_p_res p (s - gross_out r s amt) (r + amt))) ->
       (p_ta q = p_ta p /\ p_tb q = p_tb p /\ p_share q = p_share p) /\ p_total q = p_total p /\ side q h (r + amt) (s - gross_out r s amt) t).
    { intros q ->. unfold side in *. destruct (Z.eqb_spec h (p_ta p)); cbn; intuition congruence. }
    destruct (T _ eq_refl) as [T1 [T2 T3]]. split; [exact T1|]. split; [exact T2|]. split; [exact T3|].
    split; [lia|]. split; [intros _; split; [reflexivity|]; split; [lia|]; lia|]. intros Q. congruence.
  - assert (Eo : offer = t). { destruct Sd as [[-> [-> _]]|[-> [? [-> _]]]]; destruct D2; congruence. }
    subst offer. pose proof (side_flip _ _ _ _ _ Nt Sd) as Sf. destruct (side_eq _ _ _ _ _ Sf) as [E1 [E2 E3]].
    pose proof (cf_bq _ _ _ _ _ _ F _ _ _ _ Sn No D5) as L1. pose proof (cf_tr _ _ _ _ _ _ F _ _ _ _ _ _ _ (lv_sound _ _ _ _ _ L1) No D6) as L2.
    pose proof (cf_bq _ _ _ _ _ _ F _ _ _ _ (lv_sound _ _ _ _ _ L2) No D7) as L3.
    pose proof (leaves_trans _ _ _ _ _ _ (leaves_trans _ _ _ _ _ _ L1 L2) L3) as L.
    rewrite <- E3 in D8, D9. apply (own_tr _ _ _ _ _ _ _ _ _ _ _ _ F (lv_sound _ _ _ _ _ L)) in D8. destruct D8 as [D8 Sn8].
    apply (own_tr _ _ _ _ _ _ _ _ _ _ _ _ F Sn8) in D9. destruct D9 as [D9 _].
    destruct (moved_out _ _ _ _ _ _ (p_share p) D8) as [_ [_ [S1 [S2 S3]]]]. destruct (moved_out _ _ _ _ _ _ (p_share p) D9) as [_ [_ [S4 [S5 S6]]]].
    pose proof (lv_bal _ _ _ _ _ L). pose proof (lv_sup _ _ _ _ _ L).
    subst w'. simpl. rewrite fget_set_same. rewrite <- E1, <- E2 in *. rewrite Sm.
    eexists _, (r - gross_out s r amt), (s + (b1 - b0)). split; [reflexivity|]. unfold same_tokens, backed.
    change (bal (set_pool v4 _)) with (bal v4). change (supply (set_pool v4 _)) with (supply v4). unfold set_res_for.
    assert (T : forall q, (q = (if t =? p_ta p then set_p_res p (s + (b1 - b0)) (r - gross_out s r amt) else set_p_res p (r - gross_out s r amt) (s + (b1 - b0)))) ->
       (p_ta q = p_ta p /\ p_tb q = p_tb p /\ p_share q = p_share p) /\ p_total q = p_total p /\ side q h (r - gross_out s r amt) (s + (b1 - b0)) t).
    { intros q ->. unfold side in *. destruct (Z.eqb_spec t (p_ta p)); cbn; intuition congruence. }
    destruct (T _ eq_refl) as [T1 [T2 T3]]. split; [exact T1|]. split; [exact T2|]. split; [exact T3|].
    split; [lia|]. split; [intros Q; congruence|]. intros _. lia.
Qed.
Print Assumptions C234_hostile_swap.

(** ** C235: withdrawals and deposits *)
Lemma pay_share self h sh tr bq dq e t to amt w w' : confined self h sh tr bq dq -> sound self sh w -> tr e (Some self) t self to amt w = Ok (tt, w') ->
  fget self (w_pool w') = fget self (w_pool w) /\ fget self (w_stable w') = fget self (w_stable w) /\ supply w' sh <= supply w sh /\
  bal w h self - (if t =? h then amt else 0) <= bal w' h self /\ sound self sh w'.
Proof.
  intros F Sn X. destruct (Z.eqb_spec t h) as [->|N].
  - apply (own_tr _ _ _ _ _ _ _ _ _ _ _ _ F Sn) in X. destruct X as [X S']. destruct (moved_out _ _ _ _ _ _ sh X) as [A [B [C [D _]]]].
    split; [exact A|]. split; [exact B|]. split; [lia|]. split; [lia|exact S'].
  - destruct (cf_tr _ _ _ _ _ _ F _ _ _ _ _ _ _ Sn N X) as [A B C D E]. split; [exact A|]. split; [exact B|]. split; [lia|]. split; [lia|exact E].
Qed.

Lemma ratio_part T r n q b : 0 < T -> 0 <= r -> T * q <= n * 1000000000000000000 < T * (q + 1) ->
  1000000000000000000 * b <= r * q < 1000000000000000000 * (b + 1) ->
  T * b <= r * n /\ r * n * 10 ^ 18 < T * (b + 1) * 10 ^ 18 + T * r.
Proof.
  intros PT Pr [A B] [C D]. change (10 ^ 18) with 1000000000000000000.
  assert (r * (T * q) <= r * (n * 1000000000000000000)) by (apply Z.mul_le_mono_nonneg_l; lia).
  assert (r * (n * 1000000000000000000) <= r * (T * (q + 1))) by (apply Z.mul_le_mono_nonneg_l; lia).
  assert (T * (1000000000000000000 * b) <= T * (r * q)) by (apply Z.mul_le_mono_nonneg_l; lia).
  assert (T * (r * q) < T * (1000000000000000000 * (b + 1))) by (apply Z.mul_lt_mono_pos_l; lia).
  lia.
Qed.

(** [b] is the part of the payout [(a1, a2)] in token [h] *)
Definition part_of (p : Pool) (h a1 a2 : Z) : Z := if h =? p_ta p then a1 else a2.

Theorem C235_hostile_withdrawal tr bq dq e c self sender share mina minb dl w a1 a2 w' p h r s t :
  confined self h (p_share p) tr bq dq -> sound self (p_share p) w -> pool_at w self p -> p_ta p <> p_tb p -> h <> p_share p -> side p h r s t ->
  0 <= p_ra p -> 0 <= p_rb p -> 0 < p_total p -> backed w self h r (p_share p) (p_total p) ->
  pool_withdraw_with tr e c self sender share mina minb dl w = Ok ((a1, a2), w') ->
  exists p' r' s' b, pool_at w' self p' /\ same_tokens p p' /\ p_total p' = p_total p - share /\ side p' h r' s' t /\
    backed w' self h r' (p_share p) (p_total p') /\
    b = part_of p h a1 a2 /\ part_of p h mina minb <= b /\ r' = r - b /\
    (* pro rata, rounded against the one who leaves *)
    p_total p * b <= r * share /\ r * share * 10 ^ 18 < p_total p * (b + 1) * 10 ^ 18 + p_total p * r /\
    r * p_total p' <= r' * p_total p.
Proof.
  intros F Sn Hp Nt Nh Sd Pa Pb Pt [B Sp] X. unfold pool_withdraw_with in X. rstep X. winv.
  match goal with R : tok_transfer _ _ (p_share _) _ _ _ _ = Ok _ |- _ => rename R into T1 end. repeat match goal with u : unit |- _ => destruct u end.
  destruct (transfer_sound self (p_share p) _ _ _ _ _ _ _ T1 Sn) as [Gd1 [_ Ad1]]. tinv. destr_pair.
  repeat match goal with u : unit |- _ => destruct u end.
  match goal with R : fget self (w_pool w) = Some ?q |- _ => unfold pool_at in Hp; rewrite Hp in R; inversion R; subst q; clear R end.
  match goal with R : Moved (p_share p) _ _ _ _ ?wx |- _ => rename R into M1; rename wx into W1 end.
  match goal with R : burn_shares _ _ _ _ = Ok (_, ?wx) |- _ => pose proof R as T2; apply burn_shares_ok in R;
    destruct R as [p3 [W2 [Ep3 [Bn [Eend Etok]]]]]; rename wx into W2' end.
  rewrite (mv_pool _ _ _ _ _ _ M1), Hp in Ep3. inversion Ep3; subst p3; clear Ep3.
  match goal with R : tr _ _ (p_ta p) _ _ _ _ = Ok (_, ?wx) |- _ => rename R into X3; rename wx into W3 end.
  match goal with R : tr _ _ (p_tb p) _ _ _ _ = Ok (_, ?wx) |- _ => rename R into X4; rename wx into W4 end.
  match goal with R : fget self (w_pool W4) = Some _ |- _ => rename R into Hp4 end.
  assert (Ps : 0 < share) by (cbn [vpos] in *; lia).
  match goal with R : i_mul_dec (p_ra p) _ = Ok ?q |- _ => rename q into a1 end. match goal with R : i_mul_dec (p_rb p) _ = Ok ?q |- _ => rename q into a2 end.
  match goal with R : dec_from_ratio _ _ = Ok _ |- _ => apply dec_from_ratio_pos in R; [destruct R as [Qa [Qc Qb]]|cbn [vpos] in *; lia|exact Pt] end.
  repeat match goal with R : i_mul_dec _ _ = Ok _ |- _ => apply i_mul_dec_pos in R; [|lia|lia]; destruct R as [? [_ ?]] end.
  cbn [vpos] in *. unfold DEC in *.
  match goal with R : 1000000000000000000 * a1 <= _ < _ |- _ => destruct (ratio_part _ _ _ _ _ Pt Pa Qb R) as [U1 U2] end.
  match goal with R : 1000000000000000000 * a2 <= _ < _ |- _ => destruct (ratio_part _ _ _ _ _ Pt Pb Qb R) as [U3 U4] end.
  assert (S2 : sound self (p_share p) W2').
  { assert (C1 : fget self (w_code W1) = Some KPool) by (rewrite (mv_rest _ _ _ _ _ _ M1); assumption).
    pose proof (frame_burn_shares _ _ _ _ _ _ T2 Gd1) as Fb. destruct Fb as [G2 [X2 _]]; [intros s0 E; inversion E; subst; exact C1|].
    split; [exact G2|]. split; [exists KPool; apply (ex_code _ _ X2); exact C1|].
    transitivity (tadmin W2 (p_share p)); [unfold tadmin; rewrite Etok; reflexivity|]. rewrite (bn_adm _ _ _ _ _ Bn). exact Ad1. }
  destruct (pay_share _ _ _ _ _ _ _ _ _ _ _ _ F S2 X3) as [A1 [_ [A2 [A3 S3]]]]. destruct (pay_share _ _ _ _ _ _ _ _ _ _ _ _ F S3 X4) as [B1 [_ [B2 [B3 _]]]].
  rewrite B1, A1, Eend in Hp4. injection Hp4 as <-.
  assert (E0 : bal W2' h self = bal w h self).
  { rewrite (bal_wtok W2 W2') by auto. rewrite (bn_bal _ _ _ _ _ Bn), (mv_bal _ _ _ _ _ _ M1).
    destruct (Z.eqb_spec h (p_share p)); [contradiction|]. cbn [andb]. unfold ind. lia. }
  assert (E1 : supply W2' (p_share p) = supply w (p_share p) - share).
  { transitivity (supply W2 (p_share p)); [unfold supply; rewrite Etok; reflexivity|].
    rewrite (bn_sup _ _ _ _ _ Bn), (mv_sup _ _ _ _ _ _ M1), Z.eqb_refl. unfold ind. lia. }
  match goal with |- context [set_p_res ?q ?x ?y] => set (pz := set_p_res q x y) end.
  assert (Fin : exists r' s' b, side pz h r' s' t /\ b = part_of p h a1 a2 /\ r' = r - b /\ p_total p * b <= r * share /\
     r * share * 10 ^ 18 < p_total p * (b + 1) * 10 ^ 18 + p_total p * r /\ part_of p h mina minb <= b /\ 0 <= b /\
     bal W2' h self - b <= bal W4 h self).
  { unfold part_of. destruct Sd as [[-> [-> [-> ->]]]|[-> [N [-> [-> ->]]]]].
    - rewrite Z.eqb_refl in *. destruct (Z.eqb_spec (p_tb p) (p_ta p)); [congruence|].
      exists (p_ra p - a1), (p_rb p - a2), a1. split; [left; repeat split; reflexivity|]. repeat split; first [assumption|lia].
    - destruct (Z.eqb_spec (p_ta p) (p_tb p)); [congruence|]. destruct (Z.eqb_spec (p_tb p) (p_ta p)); [congruence|]. rewrite Z.eqb_refl in *.
      exists (p_rb p - a2), (p_ra p - a1), a2. split; [right; repeat split; auto|]. repeat split; first [assumption|lia]. }
  destruct Fin as [r' [s' [b [F1 [F2 [F3 [F4 [F5 [F6 [F7 F8]]]]]]]]]].
  exists pz, r', s', b. split; [unfold pool_at; simpl; apply fget_set_same|]. unfold same_tokens, backed.
  change (bal (set_pool W4 _)) with (bal W4). change (supply (set_pool W4 _)) with (supply W4).
  split; [repeat split; reflexivity|]. split; [reflexivity|]. split; [exact F1|].
  change (p_total pz) with (p_total p - share).
  split; [lia|]. split; [exact F2|]. split; [exact F6|]. split; [exact F3|]. split; [exact F4|]. split; [exact F5|].
  subst r'. clear - F4. nia.
Qed.
Print Assumptions C235_hostile_withdrawal.

(** the share token after minting *)
Lemma minted_state sh to amt w w1 w' h self : h <> sh -> Minted sh to amt w w1 -> w_tok w' = w_tok w1 ->
  bal w' h self = bal w h self /\ supply w' sh = supply w sh + amt.
Proof.
  intros N M E. split.
  - rewrite (bal_wtok w1 w') by auto. rewrite (mt_bal _ _ _ _ _ M). destruct (Z.eqb_spec h sh); [contradiction|]. cbn [andb]. unfold ind. lia.
  - transitivity (supply w1 sh); [unfold supply; rewrite E; reflexivity|]. rewrite (mt_sup _ _ _ _ _ M), Z.eqb_refl. unfold ind. lia.
Qed.

Lemma step_in self h sh tr bq dq e t from amt w w' : confined self h sh tr bq dq -> from <> self -> sound self sh w ->
  tr e (Some self) t from self amt w = Ok (tt, w') -> leaves self h sh w w'.
Proof.
  intros F N Sn X. destruct (Z.eq_dec t h) as [->|Nt]; [|eapply cf_tr; eauto].
  apply (own_tr _ _ _ _ _ _ _ _ _ _ _ _ F Sn) in X. destruct X as [X S']. eapply moved_leaves; eauto.
Qed.
Lemma step_bq self h sh tr bq dq t w x w' : confined self h sh tr bq dq -> sound self sh w -> bq t self w = Ok (x, w') ->
  leaves self h sh w w' /\ (t = h -> x = bal w h self).
Proof.
  intros F Sn X. destruct (Z.eq_dec t h) as [->|Nt]; [|split; [eapply cf_bq; eauto|congruence]].
  destruct (own_bq _ _ _ _ _ _ _ _ _ F X) as [-> ->]. split; [apply leaves_refl; exact Sn|auto].
Qed.

(** a booked reserve that is not positive admits no deposit *)
Lemma dep_side_neg d o rt ro mn slip c1 c2 a : dep_side d o rt ro mn slip c1 c2 = Ok a -> 0 < d -> 0 < o ->
  (0 < rt /\ ro <= 0) \/ (rt <= 0 /\ 0 < ro) -> a <= 0.
Proof.
  unfold dep_side, dec_sub. intros H Hd Ho S. rstep H.
  assert (Q : Z.quot (o * rt) ro <= 0).
  { destruct S as [[A B]|[A B]].
    - assert (ro <> 0) by lia.
      replace ro with (- (- ro)) by lia. rewrite Z.quot_opp_r by lia.
      assert (0 <= Z.quot (o * rt) (- ro)) by (apply Z.quot_pos; [apply Z.mul_nonneg_nonneg; lia|lia]). lia.
    - replace (o * rt) with (- (o * - rt)) by lia. rewrite Z.quot_opp_l by lia.
      assert (0 <= Z.quot (o * - rt) ro) by (apply Z.quot_pos; [apply Z.mul_nonneg_nonneg; lia|lia]). lia. }
  destruct (Z.ltb_spec d (Z.quot (o * rt) ro)); [lia|].
  match goal with R : Ok _ = Ok _ |- _ => inversion R; subst end. lia.
Qed.
Lemma deposit_unfunded x mina y minb ra rb slip a b : deposit_amounts x mina y minb ra rb slip = Ok (a, b) ->
  (0 < ra /\ rb <= 0) \/ (ra <= 0 /\ 0 < rb) -> a <= 0 /\ b <= 0.
Proof.
  intros X S. unfold deposit_amounts in X. rstep X.
  match goal with R : _ = Ok (a, b) |- _ => rename R into Hr end.
  destruct ((ra =? 0) && (rb =? 0)) eqn:Z0; [lia|]. rstep Hr.
  repeat match goal with R : dep_side _ _ _ _ _ _ _ _ = Ok _ |- _ => apply dep_side_neg in R; [|lia|lia|lia] end. lia.
Qed.

Theorem C235_hostile_deposit tr bq dq e c self sender da mina db minb custom dl w w' p h r s t :
  confined self h (p_share p) tr bq dq -> sound self (p_share p) w -> sender <> self -> pool_at w self p -> p_ta p <> p_tb p -> h <> p_share p -> side p h r s t ->
  backed w self h r (p_share p) (p_total p) ->
  pool_provide_host tr bq e c self sender da mina db minb custom dl w = Ok (tt, w') ->
  exists p' r' s', pool_at w' self p' /\ same_tokens p p' /\ side p' h r' s' t /\
    backed w' self h r' (p_share p) (p_total p') /\ bal w h self <= r' /\
    (* nobody's part of [h] is diluted *)
    (0 < r -> 0 <= p_total p -> p_total p <= p_total p' /\ r * p_total p' <= r' * p_total p).
Proof.
  intros F Sn Ns Hp Nt Nh Sd [B Sp] X. unfold pool_provide_host in X. rstep X. winv.
  match goal with x : (Z * Z)%type |- _ => destruct x as [a b] end.
  match goal with R : _ = Ok (a, b) |- _ => rename R into Ha end.
  match goal with R : _ = Ok (tt, w') |- _ => rename R into H end.
  match goal with R : fget self (w_pool w) = Some ?q |- _ => unfold pool_at in Hp; rewrite Hp in R; inversion R; subst q; clear R end.
  apply mbind_ok in H. destruct H as [ia [v1 [Y1 H]]]. apply mbind_ok in H. destruct H as [ib [v2 [Y2 H]]].
  apply mbind_ok in H. destruct H as [[] [v3 [Y3 H]]]. apply mbind_ok in H. destruct H as [[] [v4 [Y4 H]]].
  apply mbind_ok in H. destruct H as [fa [v5 [Y5 H]]]. apply mbind_ok in H. destruct H as [fb [v6 [Y6 H]]].
  apply mbind_ok in H. destruct H as [xx1 [v7 [Y7 H]]]. apply mlift_ok in Y7. destruct Y7 as [xxx1' [_ E7]]. inversion E7; subst xxx1' v7. clear E7.
  apply mbind_ok in H. destruct H as [xx2 [v7 [Y7 H]]]. apply mlift_ok in Y7. destruct Y7 as [xx2' [_ E7]]. inversion E7; subst xx2' v7. clear E7.
  rstep H. winv. repeat match goal with u : unit |- _ => destruct u end.
  match goal with R : new_share_total _ _ _ _ _ _ _ _ = Ok (?q, ?wx) |- _ => rename R into Hn; rename wx into W3; rename q into n end.
  match goal with R : mint_shares _ _ _ _ _ = Ok (_, ?wx) |- _ => apply mint_shares_ok in R;
    destruct R as [p3 [W4 [Ep3 [Mt [Eend [Etok _]]]]]]; rename wx into W5 end.
  destruct (step_bq _ _ _ _ _ _ _ _ _ _ F Sn Y1) as [L1 _]. destruct (step_bq _ _ _ _ _ _ _ _ _ _ F (lv_sound _ _ _ _ _ L1) Y2) as [L2 _].
  pose proof (step_in _ _ _ _ _ _ _ _ _ _ _ _ F Ns (lv_sound _ _ _ _ _ L2) Y3) as L3. pose proof (step_in _ _ _ _ _ _ _ _ _ _ _ _ F Ns (lv_sound _ _ _ _ _ L3) Y4) as L4.
  destruct (step_bq _ _ _ _ _ _ _ _ _ _ F (lv_sound _ _ _ _ _ L4) Y5) as [L5 Q5]. destruct (step_bq _ _ _ _ _ _ _ _ _ _ F (lv_sound _ _ _ _ _ L5) Y6) as [L6 Q6].
  pose proof (leaves_trans _ _ _ _ _ _ (leaves_trans _ _ _ _ _ _ L1 L2) (leaves_trans _ _ _ _ _ _ L3 L4)) as La.
  pose proof (leaves_trans _ _ _ _ _ _ La (leaves_trans _ _ _ _ _ _ L5 L6)) as L.
  pose proof (lv_bal _ _ _ _ _ La) as Lb. pose proof (lv_bal _ _ _ _ _ L5) as Lb5. pose proof (lv_bal _ _ _ _ _ L6) as Lb6. pose proof (lv_sup _ _ _ _ _ L) as Ls.
  assert (Ep6 : fget self (w_pool v6) = Some p) by (rewrite (lv_pool _ _ _ _ _ L); exact Hp).
  match goal with R : fget self (w_pool W5) = Some ?q |- _ => rewrite Eend in R; injection R as <- end.
  (* what the token [h] reported *)
  set (f := if h =? p_ta p then fa else fb).
  assert (Ef : bal w h self <= f <= bal v6 h self).
  { unfold f. destruct (Z.eqb_spec h (p_ta p)) as [E|E]; [rewrite (Q5 (eq_sym E)); lia|].
    assert (E2 : p_tb p = h) by (destruct Sd as [[S1 _]|[S1 _]]; congruence). rewrite (Q6 E2). lia. }
  assert (N : p_ta p3 = p_ta p /\ p_tb p3 = p_tb p /\ p_share p3 = p_share p /\ bal W3 h self = bal v6 h self /\
    supply W3 (p_share p) - p_total p3 = supply v6 (p_share p) - p_total p /\
    (0 < r -> 0 < p_ra p /\ 0 < p_rb p /\ p3 = p /\ n = Z.min (Z.quot (fa * p_total p) (p_ra p)) (Z.quot (fb * p_total p) (p_rb p)))).
  { unfold new_share_total in Hn. destruct ((0 <? p_ra p) && (0 <? p_rb p)) eqn:Fd.
    - rstep Hn. rewrite Ep6 in Ep3. injection Ep3 as <-. assert (0 < p_ra p /\ 0 < p_rb p) by lia. repeat split; tauto.
    - rstep Hn. match goal with R : mint_shares _ _ _ _ _ = Ok _ |- _ => apply mint_shares_ok in R;
        destruct R as [p4 [W6 [Ep4 [Mt1 [Eend1 [Etok1 _]]]]]] end.
      rewrite Ep6 in Ep4. injection Ep4 as <-. rewrite Eend1 in Ep3. injection Ep3 as <-.
      destruct (minted_state _ _ _ _ _ _ _ self Nh Mt1 Etok1) as [Z1 Z2]. cbn [set_p_total p_ta p_tb p_share p_total].
      split; [reflexivity|]. split; [reflexivity|]. split; [reflexivity|]. split; [exact Z1|]. split; [lia|].
      intros Pr. exfalso.
      assert (U : (0 < p_ra p /\ p_rb p <= 0) \/ (p_ra p <= 0 /\ 0 < p_rb p)) by (destruct Sd as [[_ [_ [-> _]]]|[_ [_ [_ [-> _]]]]]; lia).
      assert (D0 : a <= 0 /\ b <= 0).
      { destruct da as [xa|]; [|discriminate Ha]. destruct db as [xb|]; [|discriminate Ha].
        destruct ((0 <? xa) && (0 <? xb)); [|discriminate Ha]. eapply deposit_unfunded; eassumption. }
      assert (Z0 : a * b = 0).
      { destruct Sd as [[S1 _]|[S1 _]]; rewrite <- S1 in *.
        - apply (own_tr _ _ _ _ _ _ _ _ _ _ _ _ F (lv_sound _ _ _ _ _ L2)) in Y3. destruct Y3 as [M _]. pose proof (mv_pos _ _ _ _ _ _ M).
          replace a with 0 by lia. reflexivity.
        - apply (own_tr _ _ _ _ _ _ _ _ _ _ _ _ F (lv_sound _ _ _ _ _ L3)) in Y4. destruct Y4 as [M _]. pose proof (mv_pos _ _ _ _ _ _ M).
          replace b with 0 by lia. lia. }
      rewrite Z0 in *. change (Z.sqrt 0) with 0 in *. unfold MINIMUM_LIQUIDITY_AMOUNT in *. discriminate. }
  destruct N as [N1 [N2 [N3 [N4 [N5 N6]]]]]. rewrite N3 in Mt.
  destruct (minted_state _ _ _ _ _ _ _ self Nh Mt Etok) as [Z1 Z2]. pose proof (mt_pos _ _ _ _ _ Mt) as Pm.
  match goal with |- context [set_p_res ?q ?x ?y] => set (pz := set_p_res q x y) end.
  exists pz, f, (if h =? p_ta p then fb else fa). split; [unfold pool_at; simpl; apply fget_set_same|]. unfold same_tokens, backed.
  change (bal (set_pool W5 _)) with (bal W5). change (supply (set_pool W5 _)) with (supply W5).
  split; [repeat split; assumption|]. split.
  { unfold side, f in *. change (p_ta pz) with (p_ta p3). change (p_tb pz) with (p_tb p3). change (p_ra pz) with fa. change (p_rb pz) with fb.
    rewrite N1, N2. destruct (Z.eqb_spec h (p_ta p)); intuition congruence. }
  match goal with M : Minted _ _ ?d _ _ |- _ => change (p_total pz) with (p_total p3 + d) end.
  split; [lia|]. split; [lia|].
  intros Pr Pt. destruct (N6 Pr) as [Pa [Pb [-> En]]].
  assert (Qh : n <= f * p_total p / r).
  { assert (E : f * p_total p / r = Z.quot (f * p_total p) r).
    { symmetry. apply Z.quot_div_nonneg; [apply Z.mul_nonneg_nonneg; lia|lia]. }
    rewrite E. unfold f. destruct Sd as [[-> [_ [-> _]]]|[-> [? [_ [-> _]]]]]; [rewrite Z.eqb_refl|destruct (Z.eqb_spec (p_tb p) (p_ta p)); [congruence|]]; lia. }
  assert (r * n <= r * (f * p_total p / r)) by (apply Z.mul_le_mono_nonneg_l; lia).
  pose proof (Z.mul_div_le (f * p_total p) r Pr).
  replace (p_total p + (n - p_total p)) with n by lia. lia.
Qed.
Print Assumptions C235_hostile_deposit.

(** ** C236: why the assumptions hold *)
(** [k] calls into the pool at [self]: directly, or by a route with an operation on the pool's pair of tokens *)
Definition calls_pool (self : Addr) (w : World) (k : Call) : Prop :=
  target k = Some self \/
  match k with
  | CHopSwap _ _ ops _ _ _ _ => exists o, In o ops /\
      (pool_tokens w self = Some (o_offer o, o_ask o) \/ pool_tokens w self = Some (o_ask o, o_offer o))
  | _ => False
  end.

Lemma legs_ut H e f u ms dl mf self kd : e_hash e = H -> forall ops ps x w r w', reachable H w -> fget self (w_code w) = Some kd ->
  Legs e f u ms dl mf ops ps x w r w' ->
  (forall o, In o ops -> pool_tokens w self <> Some (o_offer o, o_ask o) /\ pool_tokens w self <> Some (o_ask o, o_offer o)) -> UT self w w'.
Proof.
  intros Eh. induction ops as [|o ops IH]; intros ps x w r w' R C L N; inversion L as [|o0 ops0 p ps0 x0 y z w0 w1 w2 Q D L']; subst; [apply UT_refl|].
  destruct (leg_facts _ _ _ _ _ _ _ _ _ _ _ _ _ R eq_refl Q D) as [R1 _].
  assert (FG : exists g, fact_at w f g).
  { unfold fact_pool_by_pair in Q. apply mbind_ok in Q. destruct Q as [z1 [v1 [Q1 Q]]]. apply enter_ok in Q1. destruct Q1 as [_ ->].
    apply mbind_ok in Q. destruct Q as [g [v1 [Q1 Q]]]. apply get_fact_ok in Q1. destruct Q1 as [Q1 ->]. eauto. }
  destruct FG as [g Eg]. pose proof Q as Q0. apply (pair_query_spec _ _ _ _ _ _ _ R Eg) in Q0. destruct Q0 as [_ T].
  assert (Np : p <> self). { intros ->. destruct (N o (or_introl eq_refl)) as [N1 N2]. destruct T; contradiction. }
  assert (K : exists k, exec e k w = Ok (tt, w1) /\ target k = Some p /\ routed k = false).
  { destruct D as [D|D]; [exists (CPoolSwap p u (o_offer o) x (o_min o) ms dl mf)|exists (CStableSwap p u (o_offer o) x (o_min o) ms dl mf)];
      (split; [simpl; unfold drop, mbind; rewrite D; reflexivity|auto]). }
  destruct K as [k [K1 [K2 K3]]]. destruct (exec_framec _ _ _ _ K1 (reach_good _ _ R)) as [_ [Xt [_ [_ U]]]].
  assert (U1 : UT self w w1). { apply (U _ _ C). intros [A|[A _]]; congruence. }
  eapply UT_trans; [exact U1|]. eapply IH; [exact R1| |exact L'|].
  - apply (ex_code _ _ Xt). exact C.
  - intros o1 I. destruct (N o1 (or_intror I)) as [N1 N2]. unfold pool_tokens in *. rewrite (ut_pool _ _ _ U1), (ut_stable _ _ _ U1). auto.
Qed.

Lemma uncalled_ut H w e k w' self kd : reachable H w -> e_hash e = H -> exec e k w = Ok (tt, w') -> fget self (w_code w) = Some kd ->
  ~ calls_pool self w k -> UT self w w'.
Proof.
  intros R Eh X C N. destruct (exec_framec _ _ _ _ X (reach_good _ _ R)) as [_ [_ [_ [_ U]]]].
  destruct (exists_dec_acts k self kd) as [[T|[T _]]|A]; [exfalso; apply N; left; exact T| |eauto].
  destruct k; try discriminate T; simpl in X.
  - apply drop_ok in X. destruct X as [r X].
    assert (Eh0 : exists d, fget h (w_hop w) = Some d). { pose proof X as X0. unfold hop_swap in X0. rstep X0. winv. eauto. }
    destruct Eh0 as [d Ed]. apply (C66_multihop_is_its_swaps _ _ _ _ _ _ _ _ _ _ _ _ _ R Ed) in X.
    destruct X as [_ [_ [_ [_ [ps Lg]]]]]. eapply legs_ut; [exact Eh|exact R|exact C|exact Lg|].
    intros o I. split; intros Z0; apply N; right; exists o; auto.
  - exfalso. unfold drop in X. apply mbind_ok in X. destruct X as [y [w1 [X _]]]. eapply C70_trade_never_succeeds; eauto.
Qed.

Theorem C236_nothing_else_reaches_the_pool H w l w' self h p : reachable H w -> pool_at w self p ->
  run_if (fun w k => ~ calls_pool self w k) H w l w' -> leaves self h (p_share p) w w'.
Proof.
  intros R Hp Rn. pose proof (gd_cpool _ (reach_good _ _ R) _ _ Hp) as C.
  assert (Ta : tadmin w (p_share p) = Some self) by (apply (reach_pool _ _ R _ _ Hp)).
  assert (U : UT self w w' /\ reachable H w' /\ fget self (w_code w') = Some KPool).
  { clear Ta Hp. induction Rn as [w|w e k w1 l w2 St Ok1 Rn IH|w n s w1 l w2 St Rn IH]; [split; [apply UT_refl|auto]| |].
    - assert (R1 : reachable H w1) by (eapply reach_run; [exact R|econstructor; [exact St|constructor]]).
      inversion St as [e0 k0 w0 Eh X|]; subst. pose proof (uncalled_ut _ _ _ _ _ _ _ R eq_refl X C Ok1) as U1.
      destruct (exec_framec _ _ _ _ X (reach_good _ _ R)) as [_ [Xt _]].
      destruct IH as [U2 Rest]; [exact R1|apply (ex_code _ _ Xt); exact C|]. split; [eapply UT_trans; eassumption|exact Rest].
    - assert (R1 : reachable H w1) by (eapply reach_run; [exact R|econstructor; [exact St|constructor]]).
      inversion St; subst. destruct IH as [U2 Rest]; [exact R1|exact C|]. split; [|exact Rest]. eapply UT_trans; [|exact U2]. constructor; auto; [intros ?; unfold bal; simpl; lia|intros; split; auto; unfold supply; simpl; lia]. }
  destruct U as [U [R' C']].
  constructor; [apply U|apply U|apply U|apply (ut_tok _ _ _ U _ Ta)|]. split; [|split; [exists KPool; exact C'|apply (ut_tok _ _ _ U _ Ta)]].
  exact (reach_good _ _ R').
Qed.
Print Assumptions C236_nothing_else_reaches_the_pool.

(** A harmful token that does, in whatever state it is called, what it likes: it sends calls [f], [g] and [d] to the contracts, in
    anybody's name, and answers what it likes. *)
Fixpoint perform (l : list (Env * Call)) : ST World unit :=
  match l with [] => mret tt | (e, k) :: l => exec e k ;; perform l end.
Definition script_tr (h : Addr) (f : Env -> Addr -> Addr -> Addr -> Z -> World -> list (Env * Call)) : Transfer :=
  fun e c t from to amt w => if t =? h then tok_transfer e c t from to amt w else perform (f e t from to amt w) w.
Definition script_bq (h : Addr) (g : Addr -> World -> list (Env * Call) * Z) : Balance :=
  fun t a w => if t =? h then tok_balance t a w else (perform (fst (g t w)) ;; mret (snd (g t w))) w.
Definition script_dq (h : Addr) (d : Addr -> World -> list (Env * Call) * Z) : Decimals :=
  fun t w => if t =? h then tok_decimals t w else (perform (fst (d t w)) ;; mret (snd (d t w))) w.

Definition stays_out (self : Addr) (l : list (Env * Call)) : Prop :=
  Forall (fun x => target (snd x) <> Some self /\ routed (snd x) = false) l.

Lemma perform_leaves self h sh : forall l w w', stays_out self l -> sound self sh w -> perform l w = Ok (tt, w') -> leaves self h sh w w'.
Proof.
  induction l as [|[e k] l IH]; intros w w' S Sn X; cbn [perform] in X.
  - inversion X; subst. apply leaves_refl. exact Sn.
  - apply mbind_ok in X. destruct X as [[] [w1 [X1 X]]]. inversion S as [|x0 l0 [N1 N2] S']; subst. cbn [snd] in *.
    destruct Sn as [G [[kd C] A]]. destruct (exec_framec _ _ _ _ X1 G) as [G1 [E1 [_ [_ U]]]].
    assert (U1 : UT self w w1). { apply (U _ _ C). intros [T|[T _]]; congruence. }
    assert (L1 : leaves self h sh w w1).
    { constructor; [apply U1|apply U1|apply U1|apply (ut_tok _ _ _ U1 _ A)|].
      split; [exact G1|]. split; [exists kd; apply (ex_code _ _ E1); exact C|apply (ut_tok _ _ _ U1 _ A)]. }
    eapply leaves_trans; [exact L1|]. apply IH; [exact S'|apply L1|exact X].
Qed.

Theorem C236_scripts_are_confined self h sh f g d :
  (forall e t from to amt w, stays_out self (f e t from to amt w)) -> (forall t w, stays_out self (fst (g t w))) ->
  (forall t w, stays_out self (fst (d t w))) -> confined self h sh (script_tr h f) (script_bq h g) (script_dq h d).
Proof.
  intros Hf Hg Hd.
  constructor; unfold script_tr, script_bq, script_dq;
    [intros; rewrite Z.eqb_refl; reflexivity|intros; rewrite Z.eqb_refl; reflexivity|intros; rewrite Z.eqb_refl; reflexivity| | |].
  - intros e t from to amt w w' Sn N X. destruct (Z.eqb_spec t h); [contradiction|]. exact (perform_leaves _ _ _ _ _ _ (Hf e t from to amt w) Sn X).
  - intros t w x w' Sn N X. destruct (Z.eqb_spec t h); [contradiction|]. apply mbind_ok in X. destruct X as [[] [w1 [X X2]]].
    inversion X2; subst. exact (perform_leaves _ _ _ _ _ _ (Hg t w) Sn X).
  - intros t w x w' Sn N X. destruct (Z.eqb_spec t h); [contradiction|]. apply mbind_ok in X. destruct X as [[] [w1 [X X2]]].
    inversion X2; subst. exact (perform_leaves _ _ _ _ _ _ (Hd t w) Sn X).
Qed.
Print Assumptions C236_scripts_are_confined.

(** reachable states meet the hypotheses of C234 and C235 *)
Lemma reach_sound H w self p : reachable H w -> pool_at w self p -> sound self (p_share p) w.
Proof.
  intros R Hp. split; [exact (reach_good _ _ R)|]. split; [exists KPool; exact (gd_cpool _ (reach_good _ _ R) _ _ Hp)|].
  apply (pi_adm _ _ _ (reach_pool _ _ R _ _ Hp)).
Qed.
Lemma reach_backed H w self p h r s t : reachable H w -> pool_at w self p -> side p h r s t ->
  backed w self h r (p_share p) (p_total p) /\ h <> p_share p /\ p_ta p <> p_tb p.
Proof.
  intros R Hp Sd. pose proof (reach_pool _ _ R _ _ Hp) as I. destruct I as [I1 I2 I3 _ I4 I5 I6 _ _ _ _ _].
  unfold backed. destruct Sd as [[-> [-> [-> ->]]]|[-> [_ [-> [-> ->]]]]]; repeat split; try lia; auto.
Qed.

(** Token 2 of the pool 10 turns bad: its transfers move nothing but send 100 units of token 1 from -4 to -5, and it reports
    that the pool owns two millions.  A buyer of token 1 pays with air; what is left of token 1 stays with the shares. *)
Definition badf : Env -> Addr -> Addr -> Addr -> Z -> World -> list (Env * Call) := fun _ _ _ _ _ _ => [(env_of [-4], CTransfer 1 (-4) (-5) 100)].
Definition badg : Addr -> World -> list (Env * Call) * Z := fun _ _ => ([], 2000000).
Definition badtr := script_tr 1 badf.
Definition badbq := script_bq 1 badg.
Lemma bad_confined : confined 10 1 (p_share xP) badtr badbq (script_dq 1 badg).
Proof.
  apply C236_scripts_are_confined; [|constructor|constructor]. intros. constructor; [|constructor]. cbn. split; [discriminate|reflexivity].
Qed.
Example C234_example : side xP 1 1000000 2000000 2 /\ sound 10 (p_share xP) xW /\ backed xW 10 1 1000000 (p_share xP) (p_total xP) /\
  (exists w', pool_swap_host badtr badbq (env_of [-4]) None 10 (-4) 2 10000 None None None None xW = Ok (4962, w') /\
     pool_at w' 10 (set_p_res xP 995024 2000000) /\ bal w' 1 (-5) = bal xW 1 (-5) + 100) /\
  (exists w', pool_swap_host badtr badbq (env_of [-4]) None 10 (-4) 1 10000 None None None None xW = Ok (19743, w') /\
     pool_at w' 10 (set_p_res xP 1010000 1980198)).
Proof.
  split; [left; vm_compute; repeat split|]. split; [eapply reach_sound; [apply xW_reach|vm_compute; reflexivity]|].
  split; [vm_compute; split; discriminate|].
  split; eexists; (split; [vm_compute; reflexivity|]); [split|]; vm_compute; reflexivity.
Qed.

(** a withdrawal of 10000 shares still pays 7071 of token 1; a deposit books the nine millions that token 2 reports but mints shares only
    as far as token 1 covers them *)
Definition badbq2 := script_bq 1 (fun _ _ => ([], 9000000)).
Example C235_example : confined 10 1 (p_share xP) badtr badbq2 (script_dq 1 badg) /\
  (exists w', pool_withdraw_with badtr (env_of [-2]) None 10 (-2) 10000 1 1 None xW = Ok ((7071, 14142), w')) /\
  (exists w', pool_provide_host badtr badbq2 (env_of [-4]) None 10 (-4) (Some 1000) None (Some 2000) None None None xW = Ok (tt, w') /\
     pool_at w' 10 (set_p_total (set_p_res xP 1001000 9000000) 1415627)).
Proof.
  split.
  { apply C236_scripts_are_confined; [|constructor|constructor]. intros. constructor; [|constructor]. cbn. split; [discriminate|reflexivity]. }
  split; eexists; [vm_compute; reflexivity|]. split; vm_compute; reflexivity.
Qed.
