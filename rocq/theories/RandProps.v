(** Property C62: internal/testutil/rand.go. *)
From Verif Require Import Base RandModel RandSpec RandProofs.

(** C62: for every random source, Shuffle permutes its argument. *)
Theorem C62_shuffle (rng : Rand) s (buf : list bytes) : rand_ok rng →
  ∃ buf' s', Shuffle rng buf s = Ok (buf', s') ∧ buf' ≡ₚ buf.
Proof. intros H. exact (Shuffle_perm rng H s buf). Qed.
Print Assumptions C62_shuffle.
(** C62: ShuffleRepeated: n entries, all from src, each entry of src at least
    as often as it occurs in src. *)
Theorem C62_repeated (rng : Rand) s n (src : list bytes) : rand_ok rng → src ≠ [] → Z.of_nat (length src) ≤ n →
  ∃ out s' extra, ShuffleRepeated rng [] n src s = Ok (out, s') ∧ Z.of_nat (length out) = n ∧
    out ≡ₚ src ++ extra ∧ ∀ x, x ∈ extra → x ∈ src.
Proof. intros H. exact (Repeated_ge rng H s [] n src). Qed.
Print Assumptions C62_repeated.
(** With n below len(src) only the first n entries are ever drawn, ... *)
Theorem C62_fewer (rng : Rand) s n (src : list bytes) : rand_ok rng → 0 ≤ n ≤ Z.of_nat (length src) →
  ∃ out s', ShuffleRepeated rng [] n src s = Ok (out, s') ∧ out ≡ₚ take (Z.to_nat n) src.
Proof. intros H. exact (Repeated_lt rng H s [] n src). Qed.
Print Assumptions C62_fewer.
(** ... and it panics exactly for a negative n, or a positive n with nothing to draw from. *)
Theorem C62_panics (rng : Rand) s n (src : list bytes) : rand_ok rng →
  ShuffleRepeated rng [] n src s = Panic ↔ n < 0 ∨ (0 < n ∧ src = []).
Proof. intros H. exact (Repeated_panics rng H s [] n src). Qed.
Print Assumptions C62_panics.
(** C62: the shuffle is unbiased: every arrangement of distinct entries comes
    from exactly one sequence of numbers of the source. *)
Theorem C62_unbiased (buf target : list bytes) : NoDup buf → target ≡ₚ buf →
  ∃ js, choices (length buf) js ∧ Shuffle playback buf js = Ok (target, []) ∧
    ∀ js', choices (length buf) js' → Shuffle playback buf js' = Ok (target, []) → js' = js.
Proof. exact (Shuffle_unbiased buf target). Qed.
Print Assumptions C62_unbiased.
(** Random byte slices have the requested lengths and hold bytes; Printable is printable. *)
Theorem C62_random_bytes (rng : Rand) s m n : rand_ok rng → 0 ≤ m → 0 ≤ n →
  ∃ bs s', RandomByteSlices rng m n s = Ok (bs, s') ∧ Z.of_nat (length bs) = m ∧
    Forall (λ b, Z.of_nat (length b) = n ∧ is_bytes b) bs.
Proof. intros H. exact (RandomByteSlices_ok rng H s m n). Qed.
Print Assumptions C62_random_bytes.
Theorem C62_printable (rng : Rand) s : rand_ok rng → ∃ b s', Printable rng s = Ok (b, s') ∧ 32 ≤ b ≤ 126.
Proof. intros H. exact (Printable_ok rng H s). Qed.
Print Assumptions C62_printable.

(** Non-vacuity *)
Example playback_is_ok : rand_ok playback.
Proof. exact playback_ok. Qed.
Example rand_nonvacuous : ∃ s', ShuffleRepeated playback [] 4 [[1]; [2]; [3]] [1; 0; 1; 1; 0] = Ok ([[2]; [3]; [2]; [1]], s').
Proof. eexists. vm_compute. reflexivity. Qed.
