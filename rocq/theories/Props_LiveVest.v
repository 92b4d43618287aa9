(** Exact conditions under which the calls of the vesting contract succeed (C135). *)
From Coq Require Import ZArith List Bool Lia Sorted.
From Coq Require Import ZifyBool.
From Verif Require Import Base FMap Decimal DecimalProofs Curve CurveProofs World Token TokenProofs Frame Stake Pool PoolProofs
  Stable StableProofs Rewards Vest Factory Router System SysFrame SysInv SysPool SysStable SysSupply
  SysVest SysStake SysRewards Script Runs Props_Token Props_Pool Props_Stable Props_Vest Props_Stake Props_Live Props_LiveTok.
Import ListNotations.
Open Scope Z_scope.

Lemma run_get_vest a p w : fget a (w_vest w) = Some p -> get_vest a w = Ok (p, w).
Proof. intros E. unfold get_vest, mget, mbind. rewrite E. reflexivity. Qed.

(** ** Claims *)
Theorem C135_claim_succeeds_iff H w e self v u i : reachable H w -> vest_at w self v ->
  (exists w', vest_claim e None self u i w = Ok (tt, w')) <->
  (signs e u = true /\ exists x locked, entry_at w self u i x /\ cvalue (vi_sched x) (w_now w) = Ok locked /\
     locked < vi_bal x /\ bal w (v_token v) u + (vi_bal x - locked) <= I128_MAX).
Proof.
  intros R E. pose proof (reach_vest _ _ R _ _ E) as I. pose proof (reach_good _ _ R) as G.
  pose proof (proj1 (reach_now _ _ R)) as P. pose proof (gd_cvest _ G _ _ E) as Hc.
  pose proof (gd_pos _ G _ _ Hc) as Pself. split.
  - intros [w' X]. apply vest_claim_ok in X. destruct X as [v0 [x [locked [B1 B2 B3 B4 B5 B6 M _]]]].
    unfold vest_at in E. rewrite E in B2. inversion B2; subst v0. rewrite authed_none in B3.
    assert (Nu : u <> self). { intros ->. rewrite signs_neg in B3 by lia. discriminate. }
    split; [exact B3|]. exists x, locked. split; [apply (entry_iff _ _ _ _ _ _ E); auto|]. split; [exact B5|]. split; [exact B6|].
    pose proof (mv_fit _ _ _ _ _ _ M) as F. rewrite (mv_bal _ _ _ _ _ _ M), !Z.eqb_refl in F.
    destruct (Z.eqb_spec u self); [congruence|]. unfold ind in F. cbn [andb] in F.
    change (bal (set_vest w _) (v_token v) u) with (bal w (v_token v) u) in F. lia.
  - intros [Sg [x [locked [Hx [Hl [L F]]]]]].
    assert (Nu : u <> self). { intros ->. rewrite signs_neg in Sg by lia. discriminate. }
    apply (entry_iff _ _ _ _ _ _ E) in Hx.
    pose proof (vv_ent _ _ _ I _ _ _ Hx) as [V1 V2 [T V3] [t [V4 V5]]].
    pose proof (schedule_start _ _ V2 V3) as [_ V6]. pose proof (typed_wf _ V2) as V7.
    assert (V8 : cvalidate (vi_sched x) = None).
    { revert V6. destruct (vi_sched x) as [y|a b d f|s]; simpl; auto.
      - destruct (sl_validate a d); [discriminate|auto].
      - destruct (pl_validate s); [discriminate|auto]. }
    pose proof (value_wf _ _ _ V7 V8 P Hl) as L0.
    pose proof (owed_ge _ _ _ _ (vv_nonneg _ _ _ I) Hx) as O1. pose proof (vv_owed _ _ _ I) as O2.
    pose proof (good_bal _ (v_token v) self G) as O3.
    assert (Av : available v (w_now w) u i = Ok (vi_bal x - locked)).
    { unfold available, v_get. rewrite Hx. unfold of_option, rbind. rewrite Hl. unfold sub_u. rewrite chk_ok; [|unfold in_u128, U128_MAX, I128_MAX in *; lia].
      unfold u2i. destruct (Z.ltb_spec I128_MAX (vi_bal x - locked)); [lia|reflexivity]. }
    unfold vest_claim. rewrite (run_bind _ _ _ tt w) by (apply run_enter; auto).
    rewrite (run_bind _ _ _ tt w) by (apply run_auth; rewrite authed_none; auto).
    rewrite (run_bind _ _ _ v w) by (apply run_get_vest; auto).
    rewrite (run_bind _ _ _ _ w) by apply run_now.
    rewrite (run_bind _ _ _ _ w) by (apply run_lift; exact Av).
    rewrite (run_bind _ _ _ tt w) by (apply run_guard; lia).
    rewrite (run_bind _ _ _ x w) by (apply run_lift; unfold v_get; rewrite Hx; reflexivity).
    rewrite (run_bind _ _ _ locked w) by (apply run_lift; exact Hl).
    rewrite (run_bind _ _ _ tt w) by (apply run_guard; lia).
    rewrite (run_bind _ _ _ (vi_bal x - locked) w) by (apply run_lift; apply i2u_runs; lia).
    rewrite (run_bind _ _ _ tt w) by (apply run_guard; lia).
    rewrite (run_bind _ _ _ locked w).
    2:{ apply run_lift. unfold sub_u. rewrite chk_ok; [f_equal; lia|]. unfold in_u128, U128_MAX, I128_MAX in *. lia. }
    match goal with |- exists w', mbind (put_vest self ?x) ?k w = _ =>
      pose proof (eq_refl : put_vest self x w = Ok (tt, set_vest w (fset self x (w_vest w)))) as PX;
      set (w1 := set_vest w (fset self x (w_vest w))) in * end.
    rewrite (run_bind _ _ _ tt w1) by exact PX.
    destruct (frame_good _ _ KVest _ _ _ _ (frame_put_vest e self _) PX G Hc) as [G1 Hc1].
    destruct (run_transfer e (Some self) (v_token v) self u (vi_bal x - locked) w1 G1) as [w2 [X2 _]].
    { unfold authed. rewrite Z.eqb_refl. apply orb_true_r. }
    { assert (B : is_tok w (v_token v)) by (apply (bal_is_tok w _ self); lia). exact B. }
    { change (bal w1 (v_token v) self) with (bal w (v_token v) self). lia. }
    { right. exact F. }
    eauto.
Qed.
Print Assumptions C135_claim_succeeds_iff.

(** ** Creations.  A curve the contract takes as the schedule of an amount [T]. *)
Definition schedule_of (maxc : Z) (c : curve) (T : Z) : Prop :=
  match c with
  | Constant _ => False
  | SatLin a b d e => a < d /\ b = T /\ e = 0 /\ 2 < maxc
  | PieceLin s => StronglySorted (fun p q => fst p < fst q /\ snd q <= snd p) s /\
      (exists t rest, s = (t, T) :: rest /\ 0 < t) /\ snd (last s (0, 0)) = 0 /\ Z.of_nat (length s) < maxc
  end.

Lemma sorted_iff p s : StronglySorted (fun p q : Curve.step => fst p < fst q /\ snd q <= snd p) (p :: s) <->
  times_from (fst p) s /\ vals_dec (snd p) s.
Proof.
  revert p. induction s as [|q s IH]; intros p; simpl.
  - split; [auto|]. intros _. constructor; constructor.
  - split.
    + intros S. inversion S as [|? ? S1 F]; subst. inversion F; subst. apply IH in S1. tauto.
    + intros [[T1 T2] [V1 V2]]. assert (S1 : StronglySorted (fun p q : Curve.step => fst p < fst q /\ snd q <= snd p) (q :: s)) by (apply IH; auto).
      constructor; auto. inversion S1 as [|? ? _ F]; subst. constructor; [lia|].
      eapply Forall_impl; [|exact F]. intros r [F1 F2]. simpl in *. lia.
Qed.

Lemma validate_iff c T maxc : typed_curve c = true ->
  (validate_schedule c = Ok T /\ csize c < maxc) <-> schedule_of maxc c T.
Proof.
  intros Ty. apply typed_wf in Ty. destruct c as [y|a b d f|s]; unfold validate_schedule, schedule_of.
  - simpl. split; [intros [X _]; discriminate|tauto].
  - simpl in *. unfold wf_step in Ty; simpl in Ty. unfold sl_validate. destruct (Z.leb_spec d a); [split; [intros [X _]; discriminate|lia]|].
    destruct (Z.ltb_spec b f).
    + split; [intros [X _]; discriminate|lia].
    + destruct (Z.eqb_spec f 0); [|split; [intros [X _]; discriminate|tauto]].
      split; [intros [X Y]; inversion X; subst; lia|]. intros [_ [-> [_ Y]]]. auto.
  - destruct s as [|p s]; [simpl; split; [intros [X _]; discriminate|]; intros [_ [[t [r [X _]]] _]]; discriminate|].
    change (validate_dec (PieceLin (p :: s))) with (match pl_validate (p :: s) with Some er => Some er | None => match classify (p :: s) with
      ShNot => Some NotMonotonic | ShInc => Some MonotonicIncreasing | _ => None end end).
    rewrite sorted_iff. unfold pl_validate, pl_end_value, pl_first_value, csize. unfold Curve.step in *.
    destruct p as [t v]. change (classify ((t, v) :: s)) with (classify_loop v ShConst s).
    assert (La : @last (Z * Z) ((t, v) :: s) (0, 0) = @last (Z * Z) ((t, v) :: s) (t, v)) by (rewrite !CurveProofs.last_cons; reflexivity).
    destruct (times_increasing 0 ((t, v) :: s)) eqn:TI.
    + apply times_increasing_iff in TI. destruct TI as [T1 T2]. simpl in T1, T2.
      destruct (classify_loop v ShConst s) eqn:C.
      3:{ assert (V : vals_dec v s) by (eapply classify_dec_vals; [right; reflexivity|congruence|congruence]).
          rewrite La. destruct (Z.eqb_spec (snd (@last (Z * Z) ((t, v) :: s) (t, v))) 0); [|split; [intros [X _]; discriminate|tauto]].
          split.
          - intros [X Y]. inversion X; subst. repeat split; auto. eauto.
          - intros [_ [[t0 [r [X _]]] [_ Y]]]. inversion X; subst. auto. }
      1:{ assert (V : vals_dec v s) by (eapply classify_dec_vals; [right; reflexivity|congruence|congruence]).
          rewrite La. destruct (Z.eqb_spec (snd (@last (Z * Z) ((t, v) :: s) (t, v))) 0); [|split; [intros [X _]; discriminate|tauto]].
          split.
          - intros [X Y]. inversion X; subst. repeat split; auto. eauto.
          - intros [_ [[t0 [r [X _]]] [_ Y]]]. inversion X; subst. auto. }
      all: split; [intros [X _]; discriminate|]; intros [[_ V] _]; simpl in V;
        destruct (vals_dec_classify s v ShConst (or_intror eq_refl) V); congruence.
    + split; [intros [X _]; discriminate|]. intros [[V1 _] [[t0 [r [X Y]]] _]]. inversion X; subst.
      assert (times_increasing 0 ((t0, T) :: r) = true) by (apply times_increasing_iff; simpl; auto). congruence.
Qed.

Lemma no_dup_iff l : no_dup l = true <-> NoDup l.
Proof.
  induction l as [|a l IH]; simpl; [split; [constructor|auto]|].
  rewrite andb_true_iff, IH, negb_true_iff. split.
  - intros [A B]. constructor; auto. intros K. enough (zmem a l = true) by congruence.
    unfold zmem. apply existsb_exists. exists a. split; [auto|apply Z.eqb_refl].
  - intros X. inversion X as [|? ? A B]; subst. split; [|auto]. destruct (zmem a l) eqn:Z0; auto. exfalso. apply A.
    unfold zmem in Z0. apply existsb_exists in Z0. destruct Z0 as [y [Iy Ey]]. apply Z.eqb_eq in Ey. subst. auto.
Qed.

Lemma valid_range c T : typed_curve c = true -> validate_schedule c = Ok T -> 0 <= T <= U128_MAX.
Proof.
  intros Ty X. destruct (schedule_start _ _ Ty X) as [S0 S1].
  apply (value_wf c 0); auto; [apply typed_wf; auto| |lia].
  destruct c as [y|q r d f|s]; simpl in *; auto.
  - destruct (sl_validate q d); [discriminate|auto].
  - destruct (pl_validate s); [discriminate|auto].
Qed.
Lemma create_all_le l : forall v tot v' tot', create_all v l tot = Ok (v', tot') ->
  forallb (fun x => typed_curve (snd x)) l = true -> tot <= tot'.
Proof.
  induction l as [|[u c] l IH]; intros v tot v' tot' H Ty; unfold create_all in H; fold create_all in H.
  - inversion H; subst. lia.
  - simpl in Ty. apply andb_true_iff in Ty. destruct Ty as [Ty1 Ty2].
    destruct (validate_schedule c) as [T|] eqn:Hv; [|discriminate]. pose proof (valid_range _ _ Ty1 Hv).
    rstep H. match goal with K : create_all _ l _ = _ |- _ => apply IH in K; auto end. lia.
Qed.
Lemma scheds_nonneg m l Ts : forallb (fun x => typed_curve (snd x)) l = true ->
  Forall2 (fun (uc : Addr * curve) T => schedule_of m (snd uc) T) l Ts -> 0 <= sum_of (fun T => T) Ts.
Proof.
  intros Ty F. induction F as [|[a b] T' l Ts Hd Tl IH]; simpl in *; [lia|]. apply andb_true_iff in Ty. destruct Ty as [T1 T2].
  specialize (IH T2). apply (validate_iff _ _ _ T1) in Hd. destruct Hd as [X _]. pose proof (valid_range _ _ T1 X). lia.
Qed.

Lemma create_all_iff l : forall v tot, forallb (fun x => typed_curve (snd x)) l = true -> 0 <= tot <= I128_MAX ->
  (exists v' tot', create_all v l tot = Ok (v', tot') /\ tot' <= I128_MAX) <->
  (exists Ts, Forall2 (fun uc T => schedule_of (v_maxc v) (snd uc) T) l Ts /\ tot + sum_of (fun T => T) Ts <= I128_MAX).
Proof.
  induction l as [|[u c] l IH]; intros v tot Ty B; unfold create_all; fold create_all.
  - split.
    + intros _. exists []. split; [constructor|simpl; lia].
    + intros _. exists v, tot. split; [reflexivity|lia].
  - simpl in Ty. apply andb_true_iff in Ty. destruct Ty as [Ty1 Ty2].
    assert (Sg : forall T m, schedule_of m c T -> 0 <= T <= U128_MAX).
    { intros T m X. apply (validate_iff _ _ _ Ty1) in X. destruct X as [X _]. apply (valid_range c); auto. }
    split.
    + intros [v' [tot' [X L]]]. destruct (validate_schedule c) as [T|] eqn:V; [|discriminate]. unfold rbind at 1 in X.
      destruct (v_maxc v <=? csize c) eqn:Mx; [discriminate|]. unfold rbind at 1 in X. cbn [negb guard] in X.
      destruct (add_u tot T) as [t1|] eqn:A; [|discriminate]. unfold rbind in X.
      assert (Sc : schedule_of (v_maxc v) c T) by (apply validate_iff; auto; split; [auto|lia]).
      pose proof (Sg _ _ Sc). apply Base.chk_ok in A. destruct A as [-> _].
      pose proof (create_all_le _ _ _ _ _ X Ty2) as Tt.
      assert (Q : exists v' tot', create_all (save_vesting u (mkVInfo T u c) v) l (tot + T) = Ok (v', tot') /\ tot' <= I128_MAX) by eauto.
      apply IH in Q; [|auto|lia]. destruct Q as [Ts [F S]]. exists (T :: Ts). split; [|simpl; lia].
      constructor; [exact Sc|exact F].
    + intros [Ts [F S]]. inversion F as [|? T ? Ts' Sc F']; subst. simpl in S, Sc.
      pose proof (Sg _ _ Sc) as GT. apply (validate_iff _ _ _ Ty1) in Sc. destruct Sc as [V Mx]. rewrite V. unfold rbind at 1.
      pose proof (scheds_nonneg _ _ _ Ty2 F') as P.
      destruct (Z.leb_spec (v_maxc v) (csize c)); [lia|]. cbn [negb guard]. unfold rbind at 1.
      unfold add_u. rewrite chk_ok by (unfold in_u128, U128_MAX, I128_MAX in *; lia). unfold rbind.
      apply IH; [auto|lia|]. exists Ts'. split; [exact F'|lia].
Qed.

Theorem C135_creation_succeeds_iff H w e self v l : reachable H w -> vest_at w self v -> is_tok w (v_token v) ->
  forallb (fun x => typed_curve (snd x)) l = true ->
  (exists w', vest_create e None self l w = Ok (tt, w')) <->
  (signs e (v_admin v) = true /\ l <> [] /\ NoDup (map fst l) /\
   exists Ts, Forall2 (fun uc T => schedule_of (v_maxc v) (snd uc) T) l Ts /\
     sum_of (fun T => T) Ts <= bal w (v_token v) (v_admin v) /\
     bal w (v_token v) self + sum_of (fun T => T) Ts <= I128_MAX).
Proof.
  intros R E Tk Ty. pose proof (reach_vest _ _ R _ _ E) as I. pose proof (reach_good _ _ R) as G.
  pose proof (gd_cvest _ G _ _ E) as Hc. pose proof (gd_pos _ G _ _ Hc) as Pself.
  assert (Sm : forall v' tot Ts, create_all v l 0 = Ok (v', tot) ->
    Forall2 (fun uc T => schedule_of (v_maxc v) (snd uc) T) l Ts -> tot = sum_of (fun T => T) Ts).
  { intros v' tot Ts X F. rewrite (create_all_total _ _ _ _ _ X Ty). simpl. clear - F Ty.
    induction F as [|[a b] T' l Ts Hd Tl IH]; simpl in *; [reflexivity|]. apply andb_true_iff in Ty. destruct Ty as [T1 T2].
    apply (validate_iff _ _ _ T1) in Hd. destruct Hd as [X _]. destruct (schedule_start _ _ T1 X) as [S0 _]. rewrite S0, (IH T2). reflexivity. }
  split.
  - intros [w' X]. apply vest_create_ok in X. destruct X as [v0 [v' [tot [B1 B2 B3 B4 B5 B6 B7 M _]]]].
    unfold vest_at in E. rewrite E in B2. inversion B2; subst v0. rewrite authed_none in B4.
    assert (Nu : v_admin v <> self). { intros K. rewrite K, signs_neg in B4 by lia. discriminate. }
    split; [exact B4|]. split; [exact B5|]. split; [apply no_dup_iff; exact B6|].
    pose proof (mv_le _ _ _ _ _ _ M) as L. pose proof (mv_fit _ _ _ _ _ _ M) as F.
    rewrite (mv_bal _ _ _ _ _ _ M), !Z.eqb_refl in F. destruct (Z.eqb_spec self (v_admin v)); [congruence|].
    unfold ind in F. cbn [andb] in F.
    change (bal (set_vest w _) (v_token v) self) with (bal w (v_token v) self) in F.
    change (bal (set_vest w _) (v_token v) (v_admin v)) with (bal w (v_token v) (v_admin v)) in L.
    pose proof (good_bal _ (v_token v) (v_admin v) G) as Gb.
    destruct (proj1 (create_all_iff l v 0 Ty ltac:(unfold I128_MAX; lia))) as [Ts [F1 F2]].
    { exists v', tot. split; [exact B7|lia]. }
    exists Ts. pose proof (Sm _ _ _ B7 F1) as Em. subst tot. split; [exact F1|]. lia.
  - intros [Sg [Nn [ND [Ts [F1 [L F]]]]]].
    assert (Nu : v_admin v <> self). { intros K. rewrite K, signs_neg in Sg by lia. discriminate. }
    pose proof (good_bal _ (v_token v) (v_admin v) G) as Gb. pose proof (good_bal _ (v_token v) self G) as Gs.
    destruct (proj2 (create_all_iff l v 0 Ty ltac:(unfold I128_MAX; lia))) as [v' [tot [X Lt]]].
    { exists Ts. split; [exact F1|lia]. }
    pose proof (Sm _ _ _ X F1) as Em.
    assert (P : 0 <= tot) by (rewrite Em; apply (scheds_nonneg _ _ _ Ty F1)).
    rewrite <- Em in *.
    unfold vest_create. rewrite (run_bind _ _ _ tt w) by (apply run_enter; auto).
    rewrite (run_bind _ _ _ tt w) by (apply run_guard; auto).
    rewrite (run_bind _ _ _ v w) by (apply run_get_vest; auto).
    rewrite (run_bind _ _ _ tt w) by (apply run_auth; rewrite authed_none; auto).
    rewrite (run_bind _ _ _ tt w) by (apply run_guard; destruct l; [congruence|reflexivity]).
    rewrite (run_bind _ _ _ tt w) by (apply run_guard; apply no_dup_iff; auto).
    rewrite (run_bind _ _ _ (v', tot) w) by (apply run_lift; exact X). cbv beta iota.
    rewrite (run_bind _ _ _ (bal w (v_token v) (v_admin v)) w) by (apply run_balance; exact Tk).
    rewrite (run_bind _ _ _ tot w).
    2:{ apply run_lift. unfold u2i. destruct (Z.ltb_spec I128_MAX tot); [lia|reflexivity]. }
    rewrite (run_bind _ _ _ tt w) by (apply run_guard; lia).
    pose proof (eq_refl : put_vest self v' w = Ok (tt, set_vest w (fset self v' (w_vest w)))) as PX.
    set (w1 := set_vest w (fset self v' (w_vest w))) in *.
    rewrite (run_bind _ _ _ tt w1) by exact PX.
    destruct (frame_good _ _ KVest _ _ _ _ (frame_put_vest e self _) PX G Hc) as [G1 Hc1].
    destruct (run_transfer e (Some self) (v_token v) (v_admin v) self tot w1 G1) as [w2 [X2 _]].
    { unfold authed. rewrite Sg. auto. }
    { exact Tk. }
    { change (bal w1 (v_token v) (v_admin v)) with (bal w (v_token v) (v_admin v)). lia. }
    { right. exact F. }
    eauto.
Qed.
Print Assumptions C135_creation_succeeds_iff.

(** ** Minting *)
Theorem C135_mint_succeeds_iff H w e self v u amt : reachable H w -> vest_at w self v ->
  (exists w', vest_mint e None self u amt w = Ok (tt, w')) <->
  (signs e u = true /\ 0 < amt /\ (exists cap, v_minter v = Some (u, cap) /\ amt <= cap) /\
   bal w (v_token v) self + amt <= I128_MAX /\
   exists a, tadmin w (v_token v) = Some a /\ (a = self \/ signs e a = true)).
Proof.
  intros R E. pose proof (reach_good _ _ R) as G.
  pose proof (gd_cvest _ G _ _ E) as Hc. pose proof (gd_pos _ G _ _ Hc) as Pself. split.
  - intros [w' X]. unfold vest_mint in X. rstep X. winv.
    match goal with K : fget self (w_vest w) = Some ?q |- _ => unfold vest_at in E; rewrite E in K; inversion K; subst q end.
    match goal with K : v_minter v = Some ?q |- _ => destruct q as [m cap]; rename K into Hm end. cbn [fst snd] in *.
    match goal with K : tok_mint _ _ _ _ _ _ = _ |- _ => apply tok_mint_ok in K; destruct K as [k [A [Pm [U L]]]] end.
    match goal with K : authed e None u = true |- _ => rewrite authed_none in K end.
    split; [auto|]. split; [lia|]. split; [exists cap; split; [rewrite Hm; f_equal; f_equal; lia|lia]|].
    split. { rewrite (bal_get _ _ _ _ (proj1 U)). exact L. }
    exists (t_admin k). split; [unfold tadmin; rewrite (proj1 U); reflexivity|].
    unfold authed in A. apply orb_true_iff in A. destruct A as [A|A]; [auto|left]. lia.
  - intros [Sg [Pm [[cap [Hm Lc]] [F [a [Ta Aa]]]]]].
    unfold vest_mint. rewrite (run_bind _ _ _ tt w) by (apply run_enter; auto).
    rewrite (run_bind _ _ _ tt w) by (apply run_auth; rewrite authed_none; auto).
    rewrite (run_bind _ _ _ tt w) by (apply run_guard; lia).
    rewrite (run_bind _ _ _ v w) by (apply run_get_vest; auto).
    rewrite (run_bind _ _ _ (u, cap) w) by (apply run_lift; rewrite Hm; reflexivity). cbn [fst snd].
    rewrite (run_bind _ _ _ tt w) by (apply run_guard; lia).
    rewrite (run_bind _ _ _ amt w) by (apply run_lift, i2u_runs; lia).
    rewrite (run_bind _ _ _ tt w) by (apply run_guard; lia).
    destruct (run_mint e (Some self) (v_token v) self amt w a G) as [w1 [X1 _]]; auto; [|lia|].
    { unfold authed. destruct Aa as [Q|Q]; rewrite Q; [rewrite Z.eqb_refl; apply orb_true_r|reflexivity]. }
    rewrite (run_bind _ _ _ tt w1) by exact X1. eexists. reflexivity.
Qed.
Print Assumptions C135_mint_succeeds_iff.
