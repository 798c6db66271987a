(** Property theorems about the FNV hashes: C01, C02, C03. *)
From Verif Require Import Base FnvModel FnvSpec FnvProofs.

(** C01.  Any sequence of write and Reset calls on a fresh FNV-1 hash gives the published
    hash of the bytes written since the last Reset, which is also what the
    one-shot functions return; Write/WriteString report all bytes written. *)
Theorem C01_fnv1_streaming : ∀ (calls : list wcall), Forall wcall_ok calls →
  let all := written calls in
  Fnv64_Sum64 (fold_left call64 calls New64) = fnv1_spec all ∧
  Sum64 all = fnv1_spec all ∧ String64 all = fnv1_spec all.
Proof. exact fnv1_streaming. Qed.
Print Assumptions C01_fnv1_streaming.
Theorem C01_fnv1a_streaming : ∀ (calls : list wcall), Forall wcall_ok calls →
  let all := written calls in
  Fnv64a_Sum64 (fold_left call64a calls New64a) = fnv1a_spec all ∧
  Sum64a all = fnv1a_spec all ∧ String64a all = fnv1a_spec all.
Proof. exact fnv1a_streaming. Qed.
Print Assumptions C01_fnv1a_streaming.
(** Write and WriteString report the number of bytes given. *)
Theorem C01_write_counts : ∀ s d,
  snd (Fnv64_Write s d) = Z.of_nat (length d) ∧ snd (Fnv64_WriteString s d) = Z.of_nat (length d) ∧
  snd (Fnv64a_Write s d) = Z.of_nat (length d) ∧ snd (Fnv64a_WriteString s d) = Z.of_nat (length d).
Proof. exact (λ _ _, conj eq_refl (conj eq_refl (conj eq_refl eq_refl))). Qed.
Print Assumptions C01_write_counts.

(** the published test vectors for "foobar" *)
Example C01_vector : fnv1_spec [102;111;111;98;97;114] = 0x340d8765a4dda9c2 ∧
  fnv1a_spec [102;111;111;98;97;114] = 0x85944171f73967e8.
Proof. split; vm_compute; reflexivity. Qed.
Example C01_nonvacuous : Forall wcall_ok [CWrite [102;111]; CWriteByte 111; CWriteString [98]; CReset; CWriteUint64 (2^63+1)].
Proof. repeat constructor; simpl; unfold is_byte; try lia. Qed.

(** C02.  Inputs that differ in exactly one byte never collide. *)
Theorem C02_fnv1_no_single_byte_collision : ∀ pre a b post,
  is_bytes pre → is_bytes post → is_byte a → is_byte b → a ≠ b →
  Sum64 (pre ++ a :: post) ≠ Sum64 (pre ++ b :: post).
Proof. exact Sum64_one_byte. Qed.
Print Assumptions C02_fnv1_no_single_byte_collision.
Theorem C02_fnv1a_no_single_byte_collision : ∀ pre a b post,
  is_bytes pre → is_bytes post → is_byte a → is_byte b → a ≠ b →
  Sum64a (pre ++ a :: post) ≠ Sum64a (pre ++ b :: post).
Proof. exact Sum64a_one_byte. Qed.
Print Assumptions C02_fnv1a_no_single_byte_collision.
(** Different hash states stay different under the same further writes. *)
Theorem C02_fnv1_state_injective : ∀ s1 s2 d,
  0 ≤ s1 < 2^64 → 0 ≤ s2 < 2^64 → is_bytes d →
  fst (Fnv64_Write s1 d) = fst (Fnv64_Write s2 d) → s1 = s2.
Proof. exact fnv1_loop_inj. Qed.
Print Assumptions C02_fnv1_state_injective.
Theorem C02_fnv1a_state_injective : ∀ s1 s2 d,
  0 ≤ s1 < 2^64 → 0 ≤ s2 < 2^64 → is_bytes d →
  fst (Fnv64a_Write s1 d) = fst (Fnv64a_Write s2 d) → s1 = s2.
Proof. exact fnv1a_loop_inj. Qed.
Print Assumptions C02_fnv1a_state_injective.
Example C02_nonvacuous : Sum64 [1;2;3] ≠ Sum64 [1;7;3].
Proof. vm_compute. discriminate. Qed.

(** C03.  Sum appends the 8 big-endian bytes of the hash and leaves what was
    in the buffer alone, in every state reachable by writing bytes. *)
Theorem C03_fnv1_sum : ∀ calls buf, Forall wcall_ok calls →
  let s := fold_left call64 calls New64 in
  ∃ tail, Fnv64_Sum s buf = buf ++ tail ∧ length tail = 8%nat ∧ is_bytes tail ∧ be_dec tail = Fnv64_Sum64 s.
Proof. exact fnv1_sum_ok. Qed.
Print Assumptions C03_fnv1_sum.
Theorem C03_fnv1a_sum : ∀ calls buf, Forall wcall_ok calls →
  let s := fold_left call64a calls New64a in
  ∃ tail, Fnv64a_Sum s buf = buf ++ tail ∧ length tail = 8%nat ∧ is_bytes tail ∧ be_dec tail = Fnv64a_Sum64 s.
Proof. exact fnv1a_sum_ok. Qed.
Print Assumptions C03_fnv1a_sum.
Example C03_nonvacuous : Fnv64_Sum (fst (Fnv64_Write New64 [102;111;111;98;97;114])) [9] =
  [9; 0x34; 0x0d; 0x87; 0x65; 0xa4; 0xdd; 0xa9; 0xc2].
Proof. vm_compute. reflexivity. Qed.
