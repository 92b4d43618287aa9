(** Conditions under which calls succeed. *)
From Coq Require Import ZArith List Bool Lia.
From Coq Require Import ZifyBool.
From Verif Require Import Base FMap Decimal World Token TokenProofs Frame.
Import ListNotations.
Open Scope Z_scope.

Lemma run_bind {A B} (m : ST World A) (k : A -> ST World B) w x w1 : m w = Ok (x, w1) -> mbind m k w = k x w1.
Proof. unfold mbind. intros ->. reflexivity. Qed.
Lemma run_guard b e (w : World) : b = true -> mguard b e w = Ok (tt, w).
Proof. unfold mguard. intros ->. reflexivity. Qed.
Lemma run_lift {A} (r : res A) x (w : World) : r = Ok x -> mlift r w = Ok (x, w).
Proof. unfold mlift. intros ->. reflexivity. Qed.
Lemma run_auth e c a w : authed e c a = true -> require_auth e c a w = Ok (tt, w).
Proof. unfold require_auth, mguard. intros ->. reflexivity. Qed.
Lemma run_enter a K w : fget a (w_code w) = Some K -> enter a K w = Ok (tt, w).
Proof.
  intros E. unfold enter, mbind, mget, mguard, is_code. rewrite E. destruct K; reflexivity.
Qed.
Lemma run_now w : now w = Ok (w_now w, w). Proof. reflexivity. Qed.

Lemma chk_ok inr x : inr x = true -> chk inr x = Ok x.
Proof. unfold chk. intros ->. reflexivity. Qed.

(** a transfer between two holders goes through whenever the sender has the money *)
Lemma tok_transfer_runs e c t from to amt w : Good w -> authed e c from = true -> is_tok w t ->
  0 <= amt <= bal w t from -> from <> to -> bal w t to + amt <= I128_MAX ->
  exists w', tok_transfer e c t from to amt w = Ok (tt, w').
Proof.
  intros G A [k Hk] L N F. rewrite !(bal_get t k) in * by auto. pose proof (gd_tok _ G _ _ Hk) as T.
  pose proof (tg_range _ T from). pose proof (tg_range _ T to).
  unfold tok_transfer. rewrite (run_bind _ _ _ tt w) by (apply run_auth; auto).
  rewrite (run_bind _ _ _ tt w) by (apply run_guard; unfold nonneg; lia).
  unfold upd_tok. rewrite (run_bind _ _ _ k w) by (unfold get_tok; rewrite Hk; auto).
  assert (E1 : tk_spend from amt k = Ok (tk_write_balance from (tk_balance from k - amt) k)).
  { unfold tk_spend. destruct (Z.ltb_spec (tk_balance from k) amt); [lia|]. simpl.
    unfold sub_i. rewrite chk_ok; [reflexivity|]. unfold in_i128, I128_MIN, I128_MAX in *. lia. }
  rewrite E1. unfold rbind at 1. unfold tk_receive. rewrite tk_balance_write.
  destruct (Z.eqb_spec to from); [congruence|]. unfold add_i. rewrite chk_ok by (unfold in_i128, I128_MIN, I128_MAX in *; lia).
  eexists. reflexivity.
Qed.

(** the address of a token with a positive balance is a token *)
Lemma bal_is_tok w t a : bal w t a <> 0 -> is_tok w t.
Proof. unfold bal, is_tok. destruct (fget t (w_tok w)); [eauto|congruence]. Qed.
