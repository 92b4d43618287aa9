(** Inversion of failed calls: which functions never fail with a code of their own ([quiet]) and what a failed sequence
    of steps implies. *)
From Coq Require Import ZArith List Bool Lia.
From Coq Require Import ZifyBool.
From Verif Require Import Base FMap Decimal Curve World Token Stake Pool Stable Rewards Vest Factory Router System TokenProofs Frame.
Import ListNotations.
Open Scope Z_scope.

(** no failure of [m] (of [r]) carries a contract error code *)
Definition quiet {A} (m : ST World A) : Prop := forall w n, m w <> Err (EContract n).
Definition rquiet {A} (r : res A) : Prop := forall n, r <> Err (EContract n).

Definition own (e : err) : bool := match e with EContract _ => true | _ => false end.

Lemma mbind_err {A B} (m : ST World A) (k : A -> ST World B) w x : mbind m k w = Err x ->
  m w = Err x \/ exists a w1, m w = Ok (a, w1) /\ k a w1 = Err x.
Proof. unfold mbind. destruct (m w) as [[a w1]|y]; intros H; [right; eauto|left; inversion H; reflexivity]. Qed.
Lemma rbind_err {A B} (m : res A) (k : A -> res B) x : rbind m k = Err x -> m = Err x \/ exists a, m = Ok a /\ k a = Err x.
Proof. unfold rbind. destruct m; intros H; [right; eauto|left; inversion H; reflexivity]. Qed.
Lemma mguard_err b x (w : World) y : mguard b x w = Err y -> b = false /\ x = y.
Proof. unfold mguard. destruct b; intros H; inversion H; auto. Qed.
Lemma guard_err b x y : guard b x = Err y -> b = false /\ x = y.
Proof. unfold guard. destruct b; intros H; inversion H; auto. Qed.
Lemma mlift_err {A} (r : res A) (w : World) y : mlift r w = Err y -> r = Err y.
Proof. unfold mlift. destruct r; intros H; inversion H; auto. Qed.
Lemma of_option_err {A} (o : option A) x y : of_option o x = Err y -> o = None /\ x = y.
Proof. destruct o; simpl; intros H; inversion H; auto. Qed.
Lemma drop_err {A} (m : ST World A) w x : drop m w = Err x -> m w = Err x.
Proof. unfold drop. intros H. apply mbind_err in H. destruct H as [H|[a [w1 [_ H]]]]; [exact H|inversion H]. Qed.

(** ** Quiet functions *)
Lemma q_bind {A B} (m : ST World A) (k : A -> ST World B) : quiet m -> (forall a, quiet (k a)) -> quiet (mbind m k).
Proof. intros Qm Qk w n H. apply mbind_err in H. destruct H as [H|[a [w1 [_ H]]]]; [exact (Qm _ _ H)|exact (Qk _ _ _ H)]. Qed.
Lemma q_lift {A} (r : res A) : rquiet r -> quiet (mlift r).
Proof. intros Q w n H. apply mlift_err in H. exact (Q _ H). Qed.
Lemma q_guard b x : own x = false -> quiet (mguard b x).
Proof. intros O w n H. apply mguard_err in H. destruct H as [_ ->]. discriminate O. Qed.
Lemma q_ret {A} (a : A) : quiet (mret a). Proof. intros w n H. discriminate H. Qed.
Lemma q_get : quiet mget. Proof. intros w n H. discriminate H. Qed.
Lemma q_gets {A} (f : World -> A) : quiet (mgets f). Proof. intros w n H. discriminate H. Qed.
Lemma q_mod f : quiet (mmod f). Proof. intros w n H. discriminate H. Qed.
Lemma q_fail {A} x : own x = false -> quiet (@mfail World A x).
Proof. intros O w n H. inversion H; subst. discriminate O. Qed.
Lemma q_when b (m : ST World unit) : quiet m -> quiet (mwhen b m).
Proof. intros Q. unfold mwhen. destruct b; [exact Q|apply q_ret]. Qed.

Lemma rq_bind {A B} (m : res A) (k : A -> res B) : rquiet m -> (forall a, rquiet (k a)) -> rquiet (rbind m k).
Proof. intros Qm Qk n H. apply rbind_err in H. destruct H as [H|[a [_ H]]]; [exact (Qm _ H)|exact (Qk _ _ H)]. Qed.
Lemma rq_guard b x : own x = false -> rquiet (guard b x).
Proof. intros O n H. apply guard_err in H. destruct H as [_ ->]. discriminate O. Qed.
Lemma rq_opt {A} (o : option A) x : own x = false -> rquiet (of_option o x).
Proof. intros O n H. apply of_option_err in H. destruct H as [_ ->]. discriminate O. Qed.
Lemma rq_ok {A} (a : A) : rquiet (Ok a). Proof. intros n H. discriminate H. Qed.
Lemma rq_err {A} x : own x = false -> rquiet (@Err A x). Proof. intros O n H. inversion H; subst. discriminate O. Qed.
Lemma rq_chk p x : rquiet (chk p x).
Proof. unfold chk. destruct (p x); [apply rq_ok|apply rq_err; reflexivity]. Qed.

Create HintDb quiet.
#[global] Hint Resolve q_ret q_get q_gets q_mod rq_ok rq_chk : quiet.
#[global] Hint Extern 1 (quiet (mguard _ _)) => (apply q_guard; reflexivity) : quiet.
#[global] Hint Extern 1 (quiet (mfail _)) => (apply q_fail; reflexivity) : quiet.
#[global] Hint Extern 1 (rquiet (guard _ _)) => (apply rq_guard; reflexivity) : quiet.
#[global] Hint Extern 1 (rquiet (of_option _ _)) => (apply rq_opt; reflexivity) : quiet.
#[global] Hint Extern 1 (rquiet (Err _)) => (apply rq_err; reflexivity) : quiet.

Ltac qt :=
  repeat first
  [ solve [auto with quiet]
  | match goal with
    | |- quiet (mbind _ _) => apply q_bind; [|intro]
    | |- quiet (mlift _) => apply q_lift
    | |- quiet (mwhen _ _) => apply q_when
    | |- rquiet (rbind _ _) => apply rq_bind; [|intro]
    | |- quiet (let '(_, _) := ?p in _) => destruct p
    | |- quiet (if ?b then _ else _) => destruct b
    | |- quiet (match ?o with _ => _ end) => destruct o
    | |- rquiet (let '(_, _) := ?p in _) => destruct p
    | |- rquiet (if ?b then _ else _) => destruct b
    | |- rquiet (match ?o with _ => _ end) => destruct o
    end
  | progress cbv beta zeta ].

Section Arith.
Variables a b : Z.
Lemma rq_add_i : rquiet (add_i a b). Proof. unfold add_i; qt. Qed.
Lemma rq_sub_i : rquiet (sub_i a b). Proof. unfold sub_i; qt. Qed.
Lemma rq_mul_i : rquiet (mul_i a b). Proof. unfold mul_i; qt. Qed.
Lemma rq_div_i : rquiet (div_i a b). Proof. unfold div_i; qt. Qed.
Lemma rq_add_u : rquiet (add_u a b). Proof. unfold add_u; qt. Qed.
Lemma rq_sub_u : rquiet (sub_u a b). Proof. unfold sub_u; qt. Qed.
Lemma rq_mul_u : rquiet (mul_u a b). Proof. unfold mul_u; qt. Qed.
Lemma rq_div_u : rquiet (div_u a b). Proof. unfold div_u; qt. Qed.
Lemma rq_add_64 : rquiet (add_64 a b). Proof. unfold add_64; qt. Qed.
Lemma rq_sub_64 : rquiet (sub_64 a b). Proof. unfold sub_64; qt. Qed.
Lemma rq_mul_64 : rquiet (mul_64 a b). Proof. unfold mul_64; qt. Qed.
Lemma rq_add_w : rquiet (add_w a b). Proof. unfold add_w; qt. Qed.
Lemma rq_sub_w : rquiet (sub_w a b). Proof. unfold sub_w; qt. Qed.
Lemma rq_mul_w : rquiet (mul_w a b). Proof. unfold mul_w; qt. Qed.
Lemma rq_div_w : rquiet (div_w a b). Proof. unfold div_w; qt. Qed.
Lemma rq_i2u : rquiet (i2u a). Proof. unfold i2u; qt. Qed.
Lemma rq_u2i : rquiet (u2i a). Proof. unfold u2i; qt. Qed.
End Arith.
#[global] Hint Resolve rq_add_i rq_sub_i rq_mul_i rq_div_i rq_add_u rq_sub_u rq_mul_u rq_div_u rq_add_64 rq_sub_64 rq_mul_64
  rq_add_w rq_sub_w rq_mul_w rq_div_w rq_i2u rq_u2i : quiet.

Lemma rq_from_ratio a b : rquiet (dec_from_ratio a b). Proof. unfold dec_from_ratio; qt. Qed.
Lemma rq_dec_sub a b : rquiet (dec_sub a b). Proof. unfold dec_sub; qt. Qed.
#[global] Hint Resolve rq_from_ratio rq_dec_sub : quiet.
Lemma rq_i_mul_dec a b : rquiet (i_mul_dec a b). Proof. unfold i_mul_dec; qt. Qed.
Lemma rq_dec_div a b : rquiet (dec_div a b). Proof. unfold dec_div; qt. Qed.
Lemma rq_pow10_u a : rquiet (pow10_u a). Proof. unfold pow10_u; qt. Qed.
Lemma rq_w2u a : rquiet (w2u a). Proof. unfold w2u; qt. Qed.
#[global] Hint Resolve rq_i_mul_dec rq_dec_div rq_pow10_u rq_w2u : quiet.
Lemma rq_scale a b c : rquiet (scale_value a b c). Proof. unfold scale_value; qt. Qed.
Lemma rq_amp p t : rquiet (amp_of p t). Proof. unfold amp_of, current_amp; qt. Qed.
#[global] Hint Resolve rq_scale rq_amp : quiet.

Lemma q_require e c a : quiet (require_auth e c a). Proof. unfold require_auth. qt. Qed.
Lemma q_enter a k : quiet (enter a k). Proof. unfold enter. qt. Qed.
Lemma q_now : quiet now. Proof. unfold now. qt. Qed.
Lemma q_deploy a k : quiet (deploy a k). Proof. unfold deploy. qt. Qed.
Lemma q_get_tok a : quiet (get_tok a). Proof. unfold get_tok. intros w n H. destruct (is_code a KTok w); destruct (fget a (w_tok w)); discriminate H. Qed.
Lemma q_get_pool a : quiet (get_pool a). Proof. unfold get_pool. intros w n H. destruct (fget a (w_pool w)); discriminate H. Qed.
Lemma q_get_stable a : quiet (get_stable a). Proof. unfold get_stable. intros w n H. destruct (fget a (w_stable w)); discriminate H. Qed.
Lemma q_get_stake a : quiet (get_stake a). Proof. unfold get_stake. intros w n H. destruct (fget a (w_stake w)); discriminate H. Qed.
Lemma q_get_rewards a : quiet (get_rewards a). Proof. unfold get_rewards. intros w n H. destruct (fget a (w_rewards w)); discriminate H. Qed.
Lemma q_get_vest a : quiet (get_vest a). Proof. unfold get_vest. intros w n H. destruct (fget a (w_vest w)); discriminate H. Qed.
Lemma q_get_fact a : quiet (get_fact a). Proof. unfold get_fact. intros w n H. destruct (fget a (w_fact w)); discriminate H. Qed.
Lemma q_get_hop a : quiet (get_hop a). Proof. unfold get_hop. intros w n H. destruct (fget a (w_hop w)); discriminate H. Qed.
Lemma q_get_trader a : quiet (get_trader a). Proof. unfold get_trader. intros w n H. destruct (fget a (w_trader w)); discriminate H. Qed.
#[global] Hint Resolve q_require q_enter q_now q_deploy q_get_tok q_get_pool q_get_stable q_get_stake q_get_rewards q_get_vest q_get_fact
  q_get_hop q_get_trader : quiet.
#[global] Hint Extern 1 (quiet (put_tok _ _)) => (apply q_mod) : quiet.
#[global] Hint Extern 1 (quiet (put_pool _ _)) => (apply q_mod) : quiet.
#[global] Hint Extern 1 (quiet (put_stable _ _)) => (apply q_mod) : quiet.
#[global] Hint Extern 1 (quiet (put_stake _ _)) => (apply q_mod) : quiet.
#[global] Hint Extern 1 (quiet (put_rewards _ _)) => (apply q_mod) : quiet.
#[global] Hint Extern 1 (quiet (put_vest _ _)) => (apply q_mod) : quiet.
#[global] Hint Extern 1 (quiet (put_fact _ _)) => (apply q_mod) : quiet.
#[global] Hint Extern 1 (quiet (put_hop _ _)) => (apply q_mod) : quiet.
#[global] Hint Extern 1 (quiet (put_trader _ _)) => (apply q_mod) : quiet.
#[global] Hint Extern 1 (quiet (put_wasm _ _)) => (apply q_mod) : quiet.

Lemma rq_spend a x k : rquiet (tk_spend a x k). Proof. unfold tk_spend; qt. Qed.
Lemma rq_receive a x k : rquiet (tk_receive a x k). Proof. unfold tk_receive; qt. Qed.
Lemma rq_wallow s a b x y k : rquiet (tk_write_allowance s a b x y k). Proof. unfold tk_write_allowance; qt. Qed.
#[global] Hint Resolve rq_spend rq_receive rq_wallow : quiet.
Lemma rq_sallow s a b x k : rquiet (tk_spend_allowance s a b x k). Proof. unfold tk_spend_allowance; qt. Qed.
#[global] Hint Resolve rq_sallow : quiet.
Lemma q_upd t f : (forall k, rquiet (f k)) -> quiet (upd_tok t f).
Proof. intros Q. unfold upd_tok. apply q_bind; [qt|intro]. apply q_bind; [apply q_lift; apply Q|intro; qt]. Qed.
Lemma q_transfer e c t a b x : quiet (tok_transfer e c t a b x). Proof. unfold tok_transfer. qt; apply q_upd; intro; qt. Qed.
Lemma q_transfer_from e c t s a b x : quiet (tok_transfer_from e c t s a b x).
Proof. unfold tok_transfer_from. qt; apply q_upd; intro; qt. Qed.
Lemma q_mint e c t b x : quiet (tok_mint e c t b x). Proof. unfold tok_mint. qt; apply q_upd; intro; qt. Qed.
Lemma q_burn e c t b x : quiet (tok_burn e c t b x). Proof. unfold tok_burn. qt; apply q_upd; intro; qt. Qed.
Lemma q_burn_from e c t s b x : quiet (tok_burn_from e c t s b x). Proof. unfold tok_burn_from. qt; apply q_upd; intro; qt. Qed.
Lemma q_set_admin e c t b : quiet (tok_set_admin e c t b). Proof. unfold tok_set_admin. qt; apply q_upd; intro; qt. Qed.
Lemma q_approve e c t a b x y : quiet (tok_approve e c t a b x y). Proof. unfold tok_approve. qt; apply q_upd; intro; qt. Qed.
Lemma q_tdeploy t a d : quiet (tok_deploy t a d). Proof. unfold tok_deploy; qt. Qed.
Lemma q_balance t a : quiet (tok_balance t a). Proof. unfold tok_balance; qt. Qed.
Lemma q_decimals t : quiet (tok_decimals t). Proof. unfold tok_decimals; qt. Qed.
#[global] Hint Resolve q_transfer q_transfer_from q_mint q_burn q_burn_from q_set_admin q_approve q_tdeploy q_balance q_decimals : quiet.
Lemma q_mint_shares e s t x : quiet (mint_shares e s t x). Proof. unfold mint_shares; qt. Qed.
Lemma q_burn_shares e s x : quiet (burn_shares e s x). Proof. unfold burn_shares; qt. Qed.
Lemma q_lmint_shares e s t x : quiet (stable_mint_shares e s t x). Proof. unfold stable_mint_shares; qt. Qed.
Lemma q_lburn_shares e s x : quiet (stable_burn_shares e s x). Proof. unfold stable_burn_shares; qt. Qed.
Lemma q_deploy_share e s a b d : quiet (deploy_share e s a b d). Proof. unfold deploy_share; qt. Qed.
#[global] Hint Resolve q_mint_shares q_burn_shares q_lmint_shares q_lburn_shares q_deploy_share : quiet.

(** ** Going through a failed call: a quiet step cannot have failed *)
Ltac noq H := exfalso; revert H; lazymatch goal with
  | |- @eq (res (_ * World)) (?m ?w) (Err (EContract ?n)) -> False => let Q := fresh in assert (Q : quiet m) by (solve [qt]); exact (Q w n)
  | |- ?r = Err (EContract ?n) -> False => let Q := fresh in assert (Q : rquiet r) by (solve [qt]); exact (Q n)
  end.
(** one step: the failure is either here ([H] of the first goal) or later *)
Ltac est H :=
  lazymatch type of H with
  | mbind _ _ _ = Err _ =>
      let a := fresh "x" in let w1 := fresh "w" in let R := fresh "R" in
      apply mbind_err in H; destruct H as [H|[a [w1 [R H]]]]; [try noq H|cbv beta in H]
  | rbind _ _ = Err _ =>
      let a := fresh "x" in let R := fresh "R" in
      apply rbind_err in H; destruct H as [H|[a [R H]]]; [try noq H|cbv beta in H]
  | mlift _ _ = Err _ => apply mlift_err in H
  | mguard _ _ _ = Err _ => let E := fresh "E" in apply mguard_err in H; destruct H as [H E]; inversion E; subst; clear E
  | guard _ _ = Err _ => let E := fresh "E" in apply guard_err in H; destruct H as [H E]; inversion E; subst; clear E
  | of_option _ _ = Err _ => let E := fresh "E" in apply of_option_err in H; destruct H as [H E]; inversion E; subst; clear E
  end.

Lemma deadline_err code dl w n : check_deadline code dl w = Err (EContract n) -> n = code /\ exists d, dl = Some d /\ d < w_now w.
Proof.
  unfold check_deadline, now. intros H. est H. unfold mgets in R. inversion R; subst. est H. split; [reflexivity|].
  destruct dl as [d|]; [|discriminate]. exists d. split; [reflexivity|lia].
Qed.

Lemma mlift_ok2 {A} (r : res A) (w w1 : World) a : mlift r w = Ok (a, w1) -> r = Ok a /\ w1 = w.
Proof. unfold mlift. destruct r; intros H; inversion H; auto. Qed.

(** a stake contract put up beside a pool is new, so "already initialised" is not among its reports *)
Definition stakes_coded (w : World) : Prop := forall a x, fget a (w_stake w) = Some x -> fget a (w_code w) <> None.

Lemma deploy_share_coded e s a b d w t w1 : deploy_share e s a b d w = Ok (t, w1) -> stakes_coded w -> stakes_coded w1.
Proof.
  intros X I. unfold deploy_share in X. cbv zeta in X. apply mbind_ok in X. destruct X as (u1 & w2 & G & X). apply mguard_ok in G.
  destruct G as [_ G]. inversion G; subst. apply mbind_ok in X. destruct X as (u2 & w3 & D & X). apply tok_deploy_ok in D.
  destruct D as (_ & _ & N & ->). inversion X; subst. intros k x E. simpl in *. rewrite fget_set. destruct (_ =? _); [discriminate|].
  exact (I _ _ E).
Qed.

Lemma deploy_stake_err e self admin share minbond minreward manager owner maxc w n : stakes_coded w ->
  deploy_stake_of e self admin share minbond minreward manager owner maxc w = Err (EContract n) ->
  (n = 2 /\ minbond <= 0) \/ (n = 3 /\ minreward <= 0) \/ (n = 12 /\ maxc = 0).
Proof.
  intros I X. unfold deploy_stake_of in X. cbv zeta in X. est X. est X; [|discriminate X].
  apply deploy_ok in R. destruct R as (_ & N & ->).
  unfold stake_initialize in X. est X. est X. apply enter_ok in R. destruct R as [_ ->]. unfold mget in R0. inversion R0; subst. clear R0.
  est X; [exfalso; est X|].
  { unfold fmem in X. simpl in X. destruct (fget _ (w_stake w)) eqn:E in X; [|discriminate X]. exact (I _ _ E N). }
  est X; [est X; left; split; [reflexivity|lia]|].
  est X; [est X; right; left; split; [reflexivity|lia]|].
  est X; [est X; right; right; split; [reflexivity|lia]|]. discriminate X.
Qed.
