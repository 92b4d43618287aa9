(** What a call can change: global well-formedness, the frame relation, and the rules
    to derive it for every entry point from the token primitives. *)
From Coq Require Import ZArith List Bool Lia.
From Coq Require Import ZifyBool.
From Verif Require Import Base FMap World Token TokenProofs.
Import ListNotations.
Open Scope Z_scope.

(** ** Well-formed ledgers *)
Record Good (w : World) : Prop := {
  gd_tok : forall t k, fget t (w_tok w) = Some k -> TokGood k;
  gd_pos : forall a k, fget a (w_code w) = Some k -> 0 <= a;
  gd_ctok : forall a x, fget a (w_tok w) = Some x -> fget a (w_code w) = Some KTok;
  gd_cpool : forall a x, fget a (w_pool w) = Some x -> fget a (w_code w) = Some KPool;
  gd_cstable : forall a x, fget a (w_stable w) = Some x -> fget a (w_code w) = Some KStable;
  gd_cstake : forall a x, fget a (w_stake w) = Some x -> fget a (w_code w) = Some KStake;
  gd_crewards : forall a x, fget a (w_rewards w) = Some x -> fget a (w_code w) = Some KRewards;
  gd_cvest : forall a x, fget a (w_vest w) = Some x -> fget a (w_code w) = Some KVest;
  gd_cfact : forall a x, fget a (w_fact w) = Some x -> fget a (w_code w) = Some KFact;
  gd_chop : forall a x, fget a (w_hop w) = Some x -> fget a (w_code w) = Some KHop;
  gd_ctrader : forall a x, fget a (w_trader w) = Some x -> fget a (w_code w) = Some KTrader }.

Lemma Good_empty : Good w_empty.
Proof. constructor; simpl; intros; discriminate. Qed.

Lemma good_bal w t a : Good w -> 0 <= bal w t a <= I128_MAX.
Proof.
  intros G. unfold bal. destruct (fget t (w_tok w)) eqn:E; [|unfold I128_MAX; lia].
  apply (tg_range _ (gd_tok _ G _ _ E)).
Qed.

Lemma good_supply w t a : Good w -> bal w t a <= supply w t.
Proof.
  intros G. unfold bal, supply. destruct (fget t (w_tok w)) eqn:E; [|lia].
  apply supply_ge_bal, (gd_tok _ G _ _ E).
Qed.

Lemma good_supply2 w t a b : Good w -> a <> b -> bal w t a + bal w t b <= supply w t.
Proof.
  intros G N. unfold bal, supply. destruct (fget t (w_tok w)) eqn:E; [|lia].
  apply supply_ge_two; auto. apply (gd_tok _ G _ _ E).
Qed.

(** ** The balance of [a] never goes down *)
Definition NL (a : Addr) (w w' : World) : Prop := forall t, bal w t a <= bal w' t a.

Lemma NL_refl a w : NL a w w. Proof. intros t. lia. Qed.
Lemma NL_trans a w1 w2 w3 : NL a w1 w2 -> NL a w2 w3 -> NL a w1 w3.
Proof. intros H1 H2 t. specialize (H1 t). specialize (H2 t). lia. Qed.

(** ** Code is never removed, tokens stay, time passes *)
Record Ext (w w' : World) : Prop := {
  ex_code : forall a k, fget a (w_code w) = Some k -> fget a (w_code w') = Some k;
  ex_dec : forall t d, tdec w t = Some d -> tdec w' t = Some d;
  ex_now : w_now w <= w_now w' }.
Lemma Ext_refl w : Ext w w. Proof. constructor; auto; lia. Qed.
Lemma Ext_trans w1 w2 w3 : Ext w1 w2 -> Ext w2 w3 -> Ext w1 w3.
Proof. intros [A B C] [A2 B2 C2]. constructor; auto; lia. Qed.

(** ** Contract [c] is untouched: its storage is the same, it lost no tokens, nobody
    minted a token it administers. *)
Record UT (c : Addr) (w w' : World) : Prop := {
  ut_bal : NL c w w';
  ut_tok : forall t, tadmin w t = Some c -> tadmin w' t = Some c /\ supply w' t <= supply w t;
  ut_pool : fget c (w_pool w') = fget c (w_pool w);
  ut_stable : fget c (w_stable w') = fget c (w_stable w);
  ut_stake : fget c (w_stake w') = fget c (w_stake w);
  ut_rewards : fget c (w_rewards w') = fget c (w_rewards w);
  ut_vest : fget c (w_vest w') = fget c (w_vest w);
  ut_fact : fget c (w_fact w') = fget c (w_fact w);
  ut_hop : fget c (w_hop w') = fget c (w_hop w);
  ut_trader : fget c (w_trader w') = fget c (w_trader w);
  ut_wasm : fget c (w_wasm w') = fget c (w_wasm w) }.

Lemma UT_refl c w : UT c w w.
Proof. constructor; auto using NL_refl. intros; split; auto; lia. Qed.
Lemma UT_trans c w1 w2 w3 : UT c w1 w2 -> UT c w2 w3 -> UT c w1 w3.
Proof.
  intros A B. constructor; try (etransitivity; [apply B|apply A]).
  - eapply NL_trans; [apply A|apply B].
  - intros t H. destruct (ut_tok _ _ _ A t H) as [H1 H2].
    destruct (ut_tok _ _ _ B t H1). split; auto; lia.
Qed.

(** ** Account [a] lost nothing: no tokens, and nobody used its admin rights *)
Definition AT (a : Addr) (w w' : World) : Prop :=
  forall t, tadmin w t = Some a -> tadmin w' t = Some a /\ supply w' t <= supply w t.
Record AC (a : Addr) (w w' : World) : Prop := { ac_bal : NL a w w'; ac_tok : AT a w w' }.
Lemma AC_refl a w : AC a w w.
Proof. constructor; [apply NL_refl|]. intros t H. split; auto. lia. Qed.
Lemma AC_trans a w1 w2 w3 : AC a w1 w2 -> AC a w2 w3 -> AC a w1 w3.
Proof.
  intros A B. constructor; [eapply NL_trans; [apply A|apply B]|].
  intros t H. destruct (ac_tok _ _ _ A t H) as [H1 H2].
  destruct (ac_tok _ _ _ B t H1). split; auto; lia.
Qed.

(** ** The frame of a computation run by contract [self] *)
Definition Frame (e : Env) (self : option Addr) (K : kind) (w w' : World) : Prop :=
  Good w -> (forall s, self = Some s -> fget s (w_code w) = Some K) ->
  Good w' /\ Ext w w' /\ w_now w' = w_now w /\ w_seq w' = w_seq w /\
  (forall a, a < 0 -> signs e a = false -> AC a w w') /\
  (forall c k, fget c (w_code w) = Some k -> Some c <> self -> UT c w w').

Lemma Frame_refl e s K w : Frame e s K w w.
Proof.
  intros G S. split; [auto|]. split; [apply Ext_refl|]. split; [auto|]. split; [auto|].
  split; intros; [apply AC_refl|apply UT_refl].
Qed.

Lemma Frame_trans e s K w1 w2 w3 : Frame e s K w1 w2 -> Frame e s K w2 w3 -> Frame e s K w1 w3.
Proof.
  intros A B G S. destruct (A G S) as [G2 [X2 [N2 [Q2 [L2 U2]]]]].
  assert (S2 : forall x, s = Some x -> fget x (w_code w2) = Some K).
  { intros x E. apply (ex_code _ _ X2). auto. }
  destruct (B G2 S2) as [G3 [X3 [N3 [Q3 [L3 U3]]]]].
  split; [auto|]. split; [eapply Ext_trans; eauto|].
  split; [congruence|]. split; [congruence|]. split.
  - intros a H1 H2. eapply AC_trans; eauto.
  - intros c k H1 H2. eapply UT_trans; [eapply U2; eauto|].
    eapply U3; eauto. apply (ex_code _ _ X2); eauto.
Qed.

(** ** Computations that stay inside a relation *)
Definition safe {A} (P : World -> World -> Prop) (m : ST World A) : Prop :=
  forall w a w', m w = Ok (a, w') -> P w w'.

Section Rules.
  Context (P : World -> World -> Prop).
  Context (Prefl : forall w, P w w).
  Context (Ptrans : forall a b c, P a b -> P b c -> P a c).

  Lemma safe_bind {A B} (m : ST World A) (k : A -> ST World B) :
    safe P m -> (forall a, safe P (k a)) -> safe P (mbind m k).
  Proof.
    intros H1 H2 w a w' H. apply mbind_ok in H. destruct H as [x [w1 [Ha Hb]]].
    eapply Ptrans; [eapply H1; eauto | eapply H2; eauto].
  Qed.
  Lemma safe_ret {A} (a : A) : safe P (mret a).
  Proof. intros w x w' H. rstep H. auto. Qed.
  Lemma safe_fail {A} e : safe P (@mfail World A e).
  Proof. intros w x w' H. discriminate. Qed.
  Lemma safe_lift {A} (r : res A) : safe P (mlift r).
  Proof. intros w x w' H. rstep H. auto. Qed.
  Lemma safe_guard b e : safe P (mguard b e).
  Proof. intros w x w' H. rstep H. auto. Qed.
  Lemma safe_get : safe P mget.
  Proof. intros w x w' H. rstep H. auto. Qed.
  Lemma safe_gets {A} (f : World -> A) : safe P (mgets f).
  Proof. intros w x w' H. rstep H. auto. Qed.
  Lemma safe_pure {A} (m : ST World A) : (forall w a w', m w = Ok (a, w') -> w' = w) -> safe P m.
  Proof. intros H w a w' E. apply H in E. subst. auto. Qed.
End Rules.

Definition pure {A} (m : ST World A) : Prop := forall w a w', m w = Ok (a, w') -> w' = w.

Lemma pure_bind {A B} (m : ST World A) (k : A -> ST World B) :
  pure m -> (forall a, pure (k a)) -> pure (mbind m k).
Proof.
  intros H1 H2 w a w' H. apply mbind_ok in H. destruct H as [x [w1 [Ha Hb]]].
  apply H1 in Ha. apply H2 in Hb. congruence.
Qed.
Lemma pure_ret {A} (a : A) : pure (mret a).
Proof. intros w x w' H. rstep H. auto. Qed.
Lemma pure_lift {A} (r : res A) : pure (mlift r).
Proof. intros w x w' H. rstep H. auto. Qed.
Lemma pure_guard b e : pure (mguard b e).
Proof. intros w x w' H. rstep H. auto. Qed.
Lemma pure_get : pure mget.
Proof. intros w x w' H. rstep H. auto. Qed.
Lemma pure_gets {A} (f : World -> A) : pure (mgets f).
Proof. intros w x w' H. rstep H. auto. Qed.
Lemma pure_fail {A} e : pure (@mfail World A e).
Proof. intros w x w' H. discriminate. Qed.
Lemma pure_get_tok a : pure (get_tok a).
Proof. intros w x w' H. unfold get_tok in H. destruct (fget a _); inversion H; auto. Qed.
Lemma pure_get_pool a : pure (get_pool a).
Proof. intros w x w' H. unfold get_pool in H. destruct (fget a _); inversion H; auto. Qed.
Lemma pure_get_stable a : pure (get_stable a).
Proof. intros w x w' H. unfold get_stable in H. destruct (fget a _); inversion H; auto. Qed.
Lemma pure_get_stake a : pure (get_stake a).
Proof. intros w x w' H. unfold get_stake in H. destruct (fget a _); inversion H; auto. Qed.
Lemma pure_get_rewards a : pure (get_rewards a).
Proof. intros w x w' H. unfold get_rewards in H. destruct (fget a _); inversion H; auto. Qed.
Lemma pure_get_vest a : pure (get_vest a).
Proof. intros w x w' H. unfold get_vest in H. destruct (fget a _); inversion H; auto. Qed.
Lemma pure_get_fact a : pure (get_fact a).
Proof. intros w x w' H. unfold get_fact in H. destruct (fget a _); inversion H; auto. Qed.
Lemma pure_get_hop a : pure (get_hop a).
Proof. intros w x w' H. unfold get_hop in H. destruct (fget a _); inversion H; auto. Qed.
Lemma pure_get_trader a : pure (get_trader a).
Proof. intros w x w' H. unfold get_trader in H. destruct (fget a _); inversion H; auto. Qed.
Lemma pure_require_auth e c a : pure (require_auth e c a).
Proof. intros w x w' H. apply require_auth_ok in H. tauto. Qed.
Lemma pure_enter a k : pure (enter a k).
Proof. intros w x w' H. unfold enter in H. rstep H. auto. Qed.
Lemma pure_now : pure now.
Proof. intros w x w' H. unfold now in H. rstep H. auto. Qed.
Lemma pure_check_deadline c d : pure (check_deadline c d).
Proof.
  unfold check_deadline. apply pure_bind; [apply pure_now|]. intros. apply pure_guard.
Qed.
Lemma pure_tok_balance t a : pure (tok_balance t a).
Proof. intros w x w' H. apply tok_balance_ok in H. tauto. Qed.
Lemma pure_tok_decimals t : pure (tok_decimals t).
Proof. intros w x w' H. apply tok_decimals_ok in H. tauto. Qed.
Lemma pure_when b m : pure m -> pure (mwhen b m).
Proof. intros. unfold mwhen. destruct b; auto using pure_ret. Qed.

Global Hint Resolve pure_ret pure_lift pure_guard pure_get pure_gets pure_fail
  pure_get_tok pure_get_pool pure_get_stable pure_get_stake pure_get_rewards pure_get_vest
  pure_get_fact pure_get_hop pure_get_trader pure_require_auth pure_enter pure_now
  pure_check_deadline pure_tok_balance pure_tok_decimals : pure.

Ltac pure_tac :=
  repeat first
  [ solve [auto with pure]
  | apply pure_bind; [|intro]
  | match goal with
    | |- pure (let '(_, _) := ?p in _) => destruct p
    | |- pure (if ?b then _ else _) => destruct b
    | |- pure (match ?o with _ => _ end) => destruct o
    end
  | progress cbv beta zeta ].

(** ** Frame lemmas for the primitives *)
Lemma authed_account e self a w K : Good w ->
  (forall s, self = Some s -> fget s (w_code w) = Some K) ->
  a < 0 -> signs e a = false -> authed e self a = true -> False.
Proof.
  intros G S N E A. unfold authed in A. rewrite E in A. simpl in A.
  destruct self as [s|]; [|discriminate].
  apply Z.eqb_eq in A. subst. pose proof (gd_pos _ G _ _ (S a eq_refl)). lia.
Qed.

Lemma signs_neg e a : 0 <= a -> signs e a = false.
Proof. intros. unfold signs. destruct (Z.ltb_spec a 0); [lia|reflexivity]. Qed.

Lemma authed_contract e self c : 0 <= c -> Some c <> self -> authed e self c = true -> False.
Proof.
  intros P N A. unfold authed in A. rewrite signs_neg in A by auto. simpl in A.
  destruct self as [s|]; [|discriminate]. apply Z.eqb_eq in A. congruence.
Qed.

(** a well-formed update of one token *)
Lemma frame_tokupd e self K t k k' w w' :
  TokUpd t k k' w w' ->
  t_dec k' = t_dec k ->
  (TokGood k -> TokGood k') ->
  (Good w -> (forall s, self = Some s -> fget s (w_code w) = Some K) ->
    (forall a, a < 0 -> signs e a = false -> tk_balance a k <= tk_balance a k' /\
       (t_admin k = a -> t_admin k' = a /\ tk_supply k' <= tk_supply k)) /\
    (forall c, 0 <= c -> Some c <> self -> tk_balance c k <= tk_balance c k' /\
       (t_admin k = c -> t_admin k' = c /\ tk_supply k' <= tk_supply k))) ->
  Frame e self K w w'.
Proof.
  intros U D HG HL G S. pose proof (proj1 U) as E. destruct (HL G S) as [HA HC].
  assert (NLX : forall a, tk_balance a k <= tk_balance a k' -> NL a w w').
  { intros a Ha x. rewrite (bal_upd _ _ _ _ _ x a U). destruct (Z.eqb_spec x t); [|lia].
    subst. rewrite (bal_get t k) by auto. auto. }
  assert (ATX : forall a, (t_admin k = a -> t_admin k' = a /\ tk_supply k' <= tk_supply k) -> AT a w w').
  { intros a B2 x Hx. destruct U as [_ ->]. unfold tadmin, supply in *; simpl.
    rewrite fget_set. destruct (Z.eqb_spec x t).
    - subst. rewrite E in Hx. inversion Hx; subst. rewrite E.
      destruct (B2 eq_refl). split; [congruence|auto].
    - split; auto; lia. }
  split; [|split; [|split; [|split; [|split]]]].
  - destruct U as [_ ->]. constructor; simpl; try apply G.
    + intros x kx H. rewrite fget_set in H. destruct (Z.eqb_spec x t).
      * inversion H; subst. apply HG. apply (gd_tok _ G _ _ E).
      * apply (gd_tok _ G _ _ H).
    + intros a x H. rewrite fget_set in H. destruct (Z.eqb_spec a t).
      * subst. apply (gd_ctok _ G _ _ E).
      * apply (gd_ctok _ G _ _ H).
  - constructor.
    + destruct U as [_ ->]. auto.
    + intros x d H. rewrite (tdec_upd _ _ _ _ _ x U D). auto.
    + destruct U as [_ ->]. simpl. lia.
  - destruct U as [_ ->]. reflexivity.
  - destruct U as [_ ->]. reflexivity.
  - intros a H1 H2. destruct (HA a H1 H2). constructor; [apply NLX|apply ATX]; auto.
  - intros c kc H1 H2. pose proof (gd_pos _ G _ _ H1). destruct (HC c) as [B1 B2]; auto.
    constructor; try (destruct U as [_ ->]; reflexivity).
    + apply NLX, B1.
    + apply (ATX c B2).
Qed.

Lemma frame_transfer e self K t from to amt : safe (Frame e self K) (tok_transfer e self t from to amt).
Proof.
  intros w u w' H. apply tok_transfer_ok in H. destruct H as [A [k [k' [U [T Al]]]]].
  apply (frame_tokupd e self K t k k' w w' U).
  - apply (te_dec _ _ _ _ _ T).
  - apply (TrEff_good _ _ _ _ _ T). intros. left. unfold tk_allow_entry. rewrite Al. reflexivity.
  - intros G S. pose proof (te_pos _ _ _ _ _ T). split.
    + intros a N Sg. rewrite (te_adm _ _ _ _ _ T), (te_sup _ _ _ _ _ T). split; [|intros; split; auto; lia].
      rewrite (te_bal _ _ _ _ _ T).
      destruct (Z.eqb_spec a from).
      * subst. exfalso. eapply authed_account; eauto.
      * unfold ind. destruct (a =? to); lia.
    + intros c P N. split.
      * rewrite (te_bal _ _ _ _ _ T). destruct (Z.eqb_spec c from).
        -- subst. exfalso. eapply authed_contract; eauto.
        -- unfold ind. destruct (c =? to); lia.
      * rewrite (te_adm _ _ _ _ _ T), (te_sup _ _ _ _ _ T). intros; split; auto; lia.
Qed.

Lemma frame_mint e self K t to amt : safe (Frame e self K) (tok_mint e self t to amt).
Proof.
  intros w u w' H. apply tok_mint_ok in H. destruct H as [k [A [P [U F]]]].
  apply (frame_tokupd e self K t k _ w w' U); auto.
  - apply mint_good; auto.
  - intros G S. 
    assert (B : forall a, tk_balance a k <= tk_balance a (tk_log_mint amt (tk_write_balance to (tk_balance to k + amt) k))).
    { intros a. change (tk_balance a k <= tk_balance a (tk_write_balance to (tk_balance to k + amt) k)).
      rewrite tk_balance_write. destruct (Z.eqb_spec a to); subst; lia. }
    split.
    + intros a Pa N. split; [auto|]. intros Ea. rewrite Ea in A. exfalso. eapply authed_account; eauto.
    + intros c Pc N. split; [auto|].
      intros Ea. rewrite Ea in A. exfalso. eapply authed_contract; eauto.
Qed.

Lemma frame_burn e self K t from amt : safe (Frame e self K) (tok_burn e self t from amt).
Proof.
  intros w u w' H. apply tok_burn_ok in H. destruct H as [A [P [k [U F]]]].
  apply (frame_tokupd e self K t k _ w w' U); auto.
  - apply burn_good; auto.
  - intros G S.
    assert (B : forall a, a <> from -> tk_balance a k <= tk_balance a (tk_log_burn amt (tk_write_balance from (tk_balance from k - amt) k))).
    { intros a Na. change (tk_balance a k <= tk_balance a (tk_write_balance from (tk_balance from k - amt) k)).
      rewrite tk_balance_write. destruct (Z.eqb_spec a from); subst; try congruence; lia. }
    assert (SX : tk_supply (tk_log_burn amt (tk_write_balance from (tk_balance from k - amt) k)) <= tk_supply k).
    { change (tk_supply (tk_write_balance from (tk_balance from k - amt) k) <= tk_supply k).
      rewrite tk_supply_write. lia. }
    split.
    + intros a N Sg. split; [apply B; intros ->; eapply authed_account; eauto|]. intros Ea. split; auto.
    + intros c Pc N. split; [apply B; intros ->; eapply authed_contract; eauto|].
      intros Ea. split; auto.
Qed.

Lemma frame_set_admin e self K t a : safe (Frame e self K) (tok_set_admin e self t a).
Proof.
  intros w u w' H. apply tok_set_admin_ok in H. destruct H as [k [A U]].
  apply (frame_tokupd e self K t k _ w w' U); auto.
  - intros G. destruct G; constructor; auto.
  - intros G S. split.
    + intros b Pa N. split; [unfold tk_balance; simpl; lia|].
      intros Ea. rewrite Ea in A. exfalso. eapply authed_account; eauto.
    + intros c P N. split; [unfold tk_balance; simpl; lia|].
      intros Ea. rewrite Ea in A. exfalso. eapply authed_contract; eauto.
Qed.

(** approve is only ever called by an account at the root *)
Lemma frame_approve e K t from sp amt ex : safe (Frame e None K) (tok_approve e None t from sp amt ex).
Proof.
  intros w u w' H. apply tok_approve_ok in H. destruct H as [A [P [k [k' [W U]]]]].
  pose proof (tk_write_allowance_ok _ _ _ _ _ _ _ W) as [_ [Ad [D [B [M [R E]]]]]].
  apply (frame_tokupd e None K t k k' w w' U); auto.
  - apply allow_good; auto. intros f s. rewrite E.
    destruct ((f =? from) && (s =? sp)) eqn:X; auto. right. eexists _, _. split; [reflexivity|].
    split; auto. unfold authed, signs in A. lia.
  - intros G S. unfold tk_balance, tk_supply. rewrite B.
    split; intros; (split; [lia|]; intros; rewrite Ad; split; auto; lia).
Qed.

(** transfer_from / burn_from never take from a contract *)
Definition FrameC (w w' : World) : Prop :=
  Good w ->
  Good w' /\ Ext w w' /\ w_now w' = w_now w /\ w_seq w' = w_seq w /\
  (forall c k, fget c (w_code w) = Some k -> UT c w w').

Lemma Frame_FrameC e K w w' : Frame e None K w w' -> FrameC w w'.
Proof.
  intros F G. destruct (F G ltac:(discriminate)) as [A [B [C [D [E H]]]]].
  split; [auto|]. split; [auto|]. split; [auto|]. split; [auto|].
  intros. eapply H; eauto. discriminate.
Qed.

Lemma spend_allow_contract seq f s amt k k0 : TokGood k -> 0 <= amt -> 0 <= f ->
  tk_spend_allowance seq f s amt k = Ok k0 -> amt = 0.
Proof.
  intros G P Pf H. pose proof (tk_spend_allowance_ok _ _ _ _ _ _ P H) as [L _].
  unfold tk_read_allowance in L. destruct (tk_allow_entry f s k) as [[a x]|] eqn:Ea.
  - pose proof (tg_allow _ G _ _ _ _ Ea). lia.
  - simpl in L. lia.
Qed.

Lemma framec_tokupd t k k' w w' :
  TokUpd t k k' w w' -> t_dec k' = t_dec k -> (TokGood k -> TokGood k') ->
  (Good w -> forall c, 0 <= c -> tk_balance c k <= tk_balance c k') ->
  (t_admin k' = t_admin k /\ tk_supply k' <= tk_supply k) -> FrameC w w'.
Proof.
  intros U D HG HB [HA HS] G.
  pose proof (proj1 U) as E.
  assert (NLX : forall a, tk_balance a k <= tk_balance a k' -> NL a w w').
  { intros a Ha x. rewrite (bal_upd _ _ _ _ _ x a U). destruct (Z.eqb_spec x t); [|lia].
    subst. rewrite (bal_get t k) by auto. auto. }
  split; [|split; [|split; [|split]]].
  - destruct U as [_ ->]. constructor; simpl; try apply G.
    + intros x kx H. rewrite fget_set in H. destruct (Z.eqb_spec x t).
      * inversion H; subst. apply HG. apply (gd_tok _ G _ _ E).
      * apply (gd_tok _ G _ _ H).
    + intros a x H. rewrite fget_set in H. destruct (Z.eqb_spec a t).
      * subst. apply (gd_ctok _ G _ _ E).
      * apply (gd_ctok _ G _ _ H).
  - constructor.
    + destruct U as [_ ->]. auto.
    + intros x d H. rewrite (tdec_upd _ _ _ _ _ x U D). auto.
    + destruct U as [_ ->]. simpl. lia.
  - destruct U as [_ ->]. reflexivity.
  - destruct U as [_ ->]. reflexivity.
  - intros c kc H1. pose proof (gd_pos _ G _ _ H1).
    constructor; try (destruct U as [_ ->]; reflexivity).
    + apply NLX, HB; auto.
    + intros x Hx. destruct U as [_ ->]. unfold tadmin, supply in *; simpl.
      rewrite fget_set. destruct (Z.eqb_spec x t).
      * subst. rewrite E in Hx. inversion Hx; subst. rewrite E. split; [congruence|auto].
      * split; auto; lia.
Qed.

Lemma frame_transfer_from e t sp from to amt : safe (FrameC) (tok_transfer_from e None t sp from to amt).
Proof.
  intros w u w' H. apply tok_transfer_from_ok in H.
  destruct H as [A [P [k [k0 [k' [Sp [T [Al U]]]]]]]].
  pose proof (tk_spend_allowance_ok _ _ _ _ _ _ P Sp) as [L [Ad [D [B [M [R E]]]]]].
  apply (framec_tokupd t k k' w w' U).
  - rewrite (te_dec _ _ _ _ _ T). auto.
  - intros Gk. apply (TrEff_good _ _ _ _ _ T).
    + intros. left. unfold tk_allow_entry. rewrite Al. reflexivity.
    + eapply spend_allowance_good; eauto.
  - intros G c Pc. rewrite (te_bal _ _ _ _ _ T). unfold tk_balance. rewrite B.
    destruct (Z.eqb_spec c from).
    + subst. assert (amt = 0).
      { eapply spend_allow_contract; [|exact P|exact Pc|exact Sp]. apply (gd_tok _ G _ _ (proj1 U)). }
      unfold ind. destruct (from =? to); lia.
    + unfold ind. destruct (c =? to); lia.
  - rewrite (te_adm _ _ _ _ _ T), (te_sup _ _ _ _ _ T). unfold tk_supply. rewrite B. split; auto; lia.
Qed.

Lemma frame_burn_from e t sp from amt : safe (FrameC) (tok_burn_from e None t sp from amt).
Proof.
  intros w u w' H. apply tok_burn_from_ok in H.
  destruct H as [A [P [k [k0 [Sp [L2 U]]]]]].
  pose proof (tk_spend_allowance_ok _ _ _ _ _ _ P Sp) as [L [Ad [D [B [M [R E]]]]]].
  assert (Bk : forall a, tk_balance a k0 = tk_balance a k) by (intros; unfold tk_balance; rewrite B; reflexivity).
  apply (framec_tokupd t k _ w w' U).
  - simpl. auto.
  - intros Gk. apply burn_good; auto. eapply spend_allowance_good; eauto.
  - intros G c Pc.
    change (tk_balance c k <= tk_balance c (tk_write_balance from (tk_balance from k0 - amt) k0)).
    rewrite tk_balance_write, !Bk. destruct (Z.eqb_spec c from); [|lia].
    subst. assert (amt = 0).
    { eapply spend_allow_contract; [|exact P|exact Pc|exact Sp]. apply (gd_tok _ G _ _ (proj1 U)). }
    lia.
  - split; [simpl; auto|].
    change (tk_supply (tk_write_balance from (tk_balance from k0 - amt) k0) <= tk_supply k).
    rewrite tk_supply_write. unfold tk_supply. rewrite B. lia.
Qed.

(** deployment *)
Lemma frame_deploy e self K a k : safe (Frame e self K) (deploy a k).
Proof.
  intros w u w' H. apply deploy_ok in H. destruct H as [P [N ->]].
  intros G S.
  assert (X : forall b kb, fget b (w_code w) = Some kb -> fget b (fset a k (w_code w)) = Some kb).
  { intros b kb Hb. rewrite fget_set_other; auto. intros ->. congruence. }
  split; [|split; [|split; [|split; [|split]]]]; auto.
  - destruct G. constructor; simpl; auto; intros; eauto.
    rewrite fget_set in H. destruct (Z.eqb_spec a0 a); [lia|eauto].
  - constructor; simpl; auto. lia.
  - intros b _ _. constructor; [intros t; unfold bal; simpl; lia|].
    intros t Ht. unfold tadmin, supply in *; simpl. split; auto. lia.
  - intros c kc H1 H2. constructor; try reflexivity.
    + intros t. unfold bal; simpl; lia.
    + intros t Ht. unfold tadmin, supply in *; simpl. split; auto. lia.
Qed.

Lemma frame_tok_deploy e self K t a d : safe (Frame e self K) (tok_deploy t a d).
Proof.
  intros w u w' H. apply tok_deploy_ok in H. destruct H as [P [D [N ->]]].
  intros G S.
  assert (NT : fget t (w_tok w) = None).
  { destruct (fget t (w_tok w)) eqn:E; auto. apply (gd_ctok _ G) in E. congruence. }
  assert (X : forall b kb, fget b (w_code w) = Some kb -> fget b (fset t KTok (w_code w)) = Some kb).
  { intros b kb Hb. rewrite fget_set_other; auto. intros ->. congruence. }
  assert (BX : forall b, NL b w (set_tok (set_code w (fset t KTok (w_code w))) (fset t (mkToken a d fempty fempty 0 0) (w_tok w)))).
  { intros b x. unfold bal; simpl. rewrite fget_set. destruct (Z.eqb_spec x t); [|lia].
    subst. rewrite NT. unfold tk_balance, fgetd; simpl. lia. }
  assert (AX : forall b, AT b w (set_tok (set_code w (fset t KTok (w_code w))) (fset t (mkToken a d fempty fempty 0 0) (w_tok w)))).
  { intros b x Hx. unfold tadmin, supply in *; simpl. rewrite fget_set.
    destruct (Z.eqb_spec x t); [subst; rewrite NT in Hx; discriminate|]. split; auto; lia. }
  split; [|split; [|split; [|split; [|split]]]]; auto.
  - destruct G. constructor; simpl; auto; intros; eauto.
    + rewrite fget_set in H. destruct (Z.eqb_spec t0 t); [|eauto].
      inversion H; subst. apply new_tok_good; auto.
    + rewrite fget_set in H. destruct (Z.eqb_spec a0 t); [lia|eauto].
    + rewrite fget_set in H. rewrite fget_set. destruct (Z.eqb_spec a0 t); [auto|eauto].
  - constructor; simpl; auto; [|lia]. intros x dx. unfold tdec; simpl. rewrite fget_set.
    destruct (Z.eqb_spec x t); auto. subst. rewrite NT. discriminate.
  - intros b _ _. constructor; auto.
  - intros c kc H1 H2. constructor; try reflexivity; auto. apply AX.
Qed.

(** writing the contract's own storage *)
Ltac frame_put :=
  intros w u w' H; unfold put_pool, put_stable, put_stake, put_rewards, put_vest, put_fact, put_hop, put_trader, put_wasm in H;
  rstep H; intros G S; pose proof (S _ eq_refl) as Sc;
  split; [|split; [|split; [reflexivity|split; [reflexivity|split]]]];
  [ destruct G; constructor; simpl; auto; intros ? ? HH; rewrite fget_set in HH;
    match type of HH with context [?a =? ?b] => destruct (Z.eqb_spec a b); subst; eauto end
  | constructor; simpl; auto; lia
  | intros b _ _; constructor; [intros t; unfold bal; simpl; lia
    |intros t Ht; unfold tadmin, supply in *; simpl; split; auto; lia]
  | intros c kc H1 H2; constructor; simpl; try reflexivity;
    try (rewrite fget_set_other by (intros ->; apply H2; reflexivity); reflexivity);
    try (intros t; unfold bal; simpl; lia);
    try (intros t Ht; unfold tadmin, supply in *; simpl; split; auto; lia) ].

Lemma frame_put_pool e s x : safe (Frame e (Some s) KPool) (put_pool s x).
Proof. frame_put. Qed.
Lemma frame_put_stable e s x : safe (Frame e (Some s) KStable) (put_stable s x).
Proof. frame_put. Qed.
Lemma frame_put_stake e s x : safe (Frame e (Some s) KStake) (put_stake s x).
Proof. frame_put. Qed.
Lemma frame_put_rewards e s x : safe (Frame e (Some s) KRewards) (put_rewards s x).
Proof. frame_put. Qed.
Lemma frame_put_vest e s x : safe (Frame e (Some s) KVest) (put_vest s x).
Proof. frame_put. Qed.
Lemma frame_put_fact e s x : safe (Frame e (Some s) KFact) (put_fact s x).
Proof. frame_put. Qed.
Lemma frame_put_hop e s x : safe (Frame e (Some s) KHop) (put_hop s x).
Proof. frame_put. Qed.
Lemma frame_put_trader e s x : safe (Frame e (Some s) KTrader) (put_trader s x).
Proof. frame_put. Qed.

Lemma frame_put_wasm e s K x : safe (Frame e (Some s) K) (put_wasm s x).
Proof. frame_put. Qed.

(** deploy a contract and run its initialisation: to everybody else it is new *)
Lemma frame_deploy_then {A} e self K a k (m : ST World A) :
  safe (Frame e (Some a) k) m -> safe (Frame e self K) (deploy a k ;; m).
Proof.
  intros Hm w x w' H. apply mbind_ok in H. destruct H as [u [w1 [H1 H2]]].
  intros G S.
  destruct (frame_deploy e self K a k _ _ _ H1 G S) as [G1 [X1 [N1 [Q1 [L1 U1]]]]].
  pose proof (deploy_ok _ _ _ _ _ H1) as [P [Nc Ew]].
  assert (Sa : forall s, Some a = Some s -> fget s (w_code w1) = Some k).
  { intros s Es. inversion Es; subst. simpl. apply fget_set_same. }
  destruct (Hm _ _ _ H2 G1 Sa) as [G2 [X2 [N2 [Q2 [L2 U2]]]]].
  split; [auto|]. split; [eapply Ext_trans; eauto|]. split; [congruence|]. split; [congruence|].
  split.
  - intros b Hb Sb. eapply AC_trans; eauto.
  - intros c kc Hc Nself. eapply UT_trans; [eapply U1; eauto|].
    eapply U2; [apply (ex_code _ _ X1); eauto|]. intros E. inversion E; subst. congruence.
Qed.

(** a computation by [s] seen from outside, when [s] has the right code *)
Lemma safe_frame_pure {A} e self K (m : ST World A) : pure m -> safe (Frame e self K) m.
Proof. intros H. apply safe_pure; auto. apply Frame_refl. Qed.

Lemma frame_bind {A B} e self K (m : ST World A) (k : A -> ST World B) :
  safe (Frame e self K) m -> (forall a, safe (Frame e self K) (k a)) -> safe (Frame e self K) (mbind m k).
Proof. apply safe_bind. intros. eapply Frame_trans; eauto. Qed.

Global Hint Resolve frame_transfer frame_mint frame_burn frame_set_admin frame_deploy frame_tok_deploy
  frame_put_pool frame_put_stable frame_put_stake frame_put_rewards frame_put_vest frame_put_fact
  frame_put_hop frame_put_trader frame_put_wasm : frame.

Ltac frame_tac :=
  repeat first
  [ solve [auto with frame]
  | solve [apply safe_frame_pure; auto with pure]
  | apply frame_bind; [|intro]
  | match goal with
    | |- safe _ (let '(_, _) := ?p in _) => destruct p
    | |- safe _ (if ?b then _ else _) => destruct b
    | |- safe _ (mwhen ?b _) => unfold mwhen; destruct b
    | |- safe _ (match ?o with _ => _ end) => destruct o
    end
  | progress cbv beta zeta ].

(** inversion of the readers *)
Lemma get_pool_ok a w x w' : get_pool a w = Ok (x, w') -> fget a (w_pool w) = Some x /\ w' = w.
Proof. unfold get_pool. destruct (fget a _); intros H; inversion H; auto. Qed.
Lemma get_stable_ok a w x w' : get_stable a w = Ok (x, w') -> fget a (w_stable w) = Some x /\ w' = w.
Proof. unfold get_stable. destruct (fget a _); intros H; inversion H; auto. Qed.
Lemma get_stake_ok a w x w' : get_stake a w = Ok (x, w') -> fget a (w_stake w) = Some x /\ w' = w.
Proof. unfold get_stake. destruct (fget a _); intros H; inversion H; auto. Qed.
Lemma get_rewards_ok a w x w' : get_rewards a w = Ok (x, w') -> fget a (w_rewards w) = Some x /\ w' = w.
Proof. unfold get_rewards. destruct (fget a _); intros H; inversion H; auto. Qed.
Lemma get_vest_ok a w x w' : get_vest a w = Ok (x, w') -> fget a (w_vest w) = Some x /\ w' = w.
Proof. unfold get_vest. destruct (fget a _); intros H; inversion H; auto. Qed.
Lemma get_fact_ok a w x w' : get_fact a w = Ok (x, w') -> fget a (w_fact w) = Some x /\ w' = w.
Proof. unfold get_fact. destruct (fget a _); intros H; inversion H; auto. Qed.
Lemma get_hop_ok a w x w' : get_hop a w = Ok (x, w') -> fget a (w_hop w) = Some x /\ w' = w.
Proof. unfold get_hop. destruct (fget a _); intros H; inversion H; auto. Qed.
Lemma get_trader_ok a w x w' : get_trader a w = Ok (x, w') -> fget a (w_trader w) = Some x /\ w' = w.
Proof. unfold get_trader. destruct (fget a _); intros H; inversion H; auto. Qed.
Lemma kind_eqb_eq a b : kind_eqb a b = true -> a = b.
Proof. destruct a, b; simpl; intros; congruence. Qed.
Lemma kind_eqb_refl a : kind_eqb a a = true.
Proof. destruct a; reflexivity. Qed.
Lemma is_code_iff a k w : is_code a k w = true <-> fget a (w_code w) = Some k.
Proof.
  unfold is_code. destruct (fget a (w_code w)).
  - split; intros H; [apply kind_eqb_eq in H; congruence|inversion H; subst; apply kind_eqb_refl].
  - split; discriminate.
Qed.
Lemma enter_ok a k w u w' : enter a k w = Ok (u, w') -> fget a (w_code w) = Some k /\ w' = w.
Proof.
  unfold enter. intros H. rstep H.
  match goal with G : is_code _ _ _ = true |- _ => apply is_code_iff in G; auto end.
Qed.
Lemma check_deadline_ok c d w u w' : check_deadline c d w = Ok (u, w') ->
  (forall x, d = Some x -> w_now w <= x) /\ w' = w.
Proof.
  unfold check_deadline, now. intros H. rstep H. split; auto.
  intros x ->. match goal with G : negb _ = true |- _ => rewrite negb_true_iff, Z.ltb_ge in G; auto end.
Qed.
Lemma now_ok w x w' : now w = Ok (x, w') -> x = w_now w /\ w' = w.
Proof. unfold now. intros H. rstep H. auto. Qed.

(** [wstep H]: peel a world-level run into its steps, inverting every reader and guard. *)
Ltac winv :=
  repeat match goal with
  | R : get_tok _ _ = Ok (_, _) |- _ => apply get_tok_ok in R; destruct R as [R ->]
  | R : get_pool _ _ = Ok (_, _) |- _ => apply get_pool_ok in R; destruct R as [R ->]
  | R : get_stable _ _ = Ok (_, _) |- _ => apply get_stable_ok in R; destruct R as [R ->]
  | R : get_stake _ _ = Ok (_, _) |- _ => apply get_stake_ok in R; destruct R as [R ->]
  | R : get_rewards _ _ = Ok (_, _) |- _ => apply get_rewards_ok in R; destruct R as [R ->]
  | R : get_vest _ _ = Ok (_, _) |- _ => apply get_vest_ok in R; destruct R as [R ->]
  | R : get_fact _ _ = Ok (_, _) |- _ => apply get_fact_ok in R; destruct R as [R ->]
  | R : get_hop _ _ = Ok (_, _) |- _ => apply get_hop_ok in R; destruct R as [R ->]
  | R : get_trader _ _ = Ok (_, _) |- _ => apply get_trader_ok in R; destruct R as [R ->]
  | R : require_auth _ _ _ _ = Ok (_, _) |- _ => apply require_auth_ok in R; destruct R as [R ->]
  | R : enter _ _ _ = Ok (_, _) |- _ => apply enter_ok in R; destruct R as [R ->]
  | R : check_deadline _ _ _ = Ok (_, _) |- _ => apply check_deadline_ok in R; destruct R as [R ->]
  | R : now _ = Ok (_, _) |- _ => apply now_ok in R; destruct R as [-> ->]
  | R : tok_balance _ _ _ = Ok (_, _) |- _ => apply tok_balance_ok in R; destruct R as [-> [-> R]]
  | R : tok_decimals _ _ = Ok (_, _) |- _ => apply tok_decimals_ok in R; destruct R as [-> R]
  | R : put_pool _ _ _ = Ok (_, _) |- _ => unfold put_pool in R; apply mmod_ok in R; inversion R; subst; clear R
  | R : put_stable _ _ _ = Ok (_, _) |- _ => unfold put_stable in R; apply mmod_ok in R; inversion R; subst; clear R
  | R : put_stake _ _ _ = Ok (_, _) |- _ => unfold put_stake in R; apply mmod_ok in R; inversion R; subst; clear R
  | R : put_rewards _ _ _ = Ok (_, _) |- _ => unfold put_rewards in R; apply mmod_ok in R; inversion R; subst; clear R
  | R : put_vest _ _ _ = Ok (_, _) |- _ => unfold put_vest in R; apply mmod_ok in R; inversion R; subst; clear R
  | R : put_fact _ _ _ = Ok (_, _) |- _ => unfold put_fact in R; apply mmod_ok in R; inversion R; subst; clear R
  | R : put_hop _ _ _ = Ok (_, _) |- _ => unfold put_hop in R; apply mmod_ok in R; inversion R; subst; clear R
  | R : put_trader _ _ _ = Ok (_, _) |- _ => unfold put_trader in R; apply mmod_ok in R; inversion R; subst; clear R
  | R : put_wasm _ _ _ = Ok (_, _) |- _ => unfold put_wasm in R; apply mmod_ok in R; inversion R; subst; clear R
  end.
