(** Linear probing, shared by the proofs about incmap and bufmap.  [ka x] is the
    key in slot x, 0 if it is free. *)
From Coq Require Import ZifyBool ZifyNat.
From Verif Require Import Base BaseProofs.
Local Open Scope Z_scope.

Definition probe (l k : Z) (i : nat) : Z := (k + Z.of_nat i) mod l.
Lemma probe_range l k i : 0 < l → 0 ≤ probe l k i < l.
Proof. intros. apply Z.mod_pos_bound. lia. Qed.

Definition placed (l : Z) (ka : Z → Z) : Prop := ∀ x, 0 ≤ x < l → ka x ≠ 0 →
  ∃ i, (i ≤ 10)%nat ∧ x = probe l (ka x) i ∧ ∀ j, (j < i)%nat → ka (probe l (ka x) j) ≠ 0 ∧ ka (probe l (ka x) j) ≠ ka x.
Definition passed (l : Z) (ka : Z → Z) (k : Z) (i : nat) : Prop := ∀ j, (j < i)%nat → ka (probe l k j) ≠ 0 ∧ ka (probe l k j) ≠ k.
Definition grows (ka ka' : Z → Z) : Prop := ∀ x, ka x ≠ 0 → ka' x = ka x.

Lemma grows_refl ka : grows ka ka. Proof. done. Qed.
Lemma passed_grows l ka ka' k i : grows ka ka' → passed l ka k i → passed l ka' k i.
Proof. intros G P j Hj. destruct (P j Hj). by rewrite G. Qed.
Lemma passed_S l ka k i : passed l ka k i → ka (probe l k i) ≠ 0 → ka (probe l k i) ≠ k → passed l ka k (S i).
Proof. intros P H1 H2 j Hj. destruct (decide (j = i)) as [->|]; [done|]. apply P. lia. Qed.
Lemma passed_0 l ka k : passed l ka k 0. Proof. intros j Hj. lia. Qed.

Lemma placed_unique l ka x y : placed l ka → 0 ≤ x < l → 0 ≤ y < l → ka x ≠ 0 → ka x = ka y → x = y.
Proof.
  intros P Hx Hy H0 E. destruct (P x Hx H0) as (i & Hi & Ex & Bx). destruct (P y Hy) as (j & Hj & Ey & By); [by rewrite <- E|].
  rewrite <- E in Ey, By. destruct (lt_eq_lt_dec i j) as [[L|L]|L].
  - destruct (By i L) as [_ N]. rewrite <- Ex in N. done.
  - subst j. by rewrite Ex, Ey.
  - destruct (Bx j L) as [_ N]. rewrite <- Ey in N. congruence.
Qed.
(** a key is where it can be found *)
Lemma placed_found l ka x k : placed l ka → 0 ≤ x < l → ka x = k → k ≠ 0 → ∃ i, (i ≤ 10)%nat ∧ x = probe l k i ∧ passed l ka k i.
Proof. intros P Hx <- H0. exact (P x Hx H0). Qed.
Lemma passed_not_placed l ka x k i : placed l ka → (10 < i)%nat → passed l ka k i → 0 ≤ x < l → k ≠ 0 → ka x ≠ k.
Proof. intros P Hi Hp Hx H0 E. destruct (placed_found l ka x k P Hx E H0) as (j & Hj & -> & _). destruct (Hp j); [lia|]. done. Qed.

Definition install (ka : Z → Z) (x k : Z) : Z → Z := λ y, if decide (y = x) then k else ka y.
Lemma install_grows ka x k : ka x = 0 → grows ka (install ka x k).
Proof. intros H y Hy. unfold install. destruct (decide _) as [->|]; [done|done]. Qed.
Lemma placed_install l ka k i : 0 < l → placed l ka → passed l ka k i → (i ≤ 10)%nat → k ≠ 0 → ka (probe l k i) = 0 →
  placed l (install ka (probe l k i) k) ∧ ∀ y, 0 ≤ y < l → ka y ≠ k.
Proof.
  intros Hl P Hp Hi Hk H0. assert (∀ y, 0 ≤ y < l → ka y ≠ k) as Hno.
  { intros y Hy E. destruct (placed_found l ka y k P Hy E Hk) as (j & Hj & -> & Hpj). destruct (lt_eq_lt_dec i j) as [[L|L]|L].
    - destruct (Hpj i L). done.
    - subst j. congruence.
    - destruct (Hp j L). done. }
  split; [|done]. pose proof (install_grows ka (probe l k i) k H0) as G. intros x Hx Hx0. unfold install in Hx0 |- * at 1. destruct (decide (x = probe l k i)) as [->|Hne].
  - exists i. replace (install ka (probe l k i) k (probe l k i)) with k by (unfold install; by rewrite decide_True).
    split; [done|]. split; [done|]. exact (passed_grows _ _ _ _ _ G Hp).
  - destruct (P x Hx Hx0) as (j & Hj & E & B). rewrite (G x Hx0). exists j. split; [done|]. split; [done|]. intros j' Hj'. destruct (B j' Hj') as [B1 B2]. by rewrite (G _ B1).
Qed.
