(** Specification of the statistical summary: the left-to-right fold of the
    observations. *)
From Verif Require Import Base Float64 Stat64Model.

Inductive sop := SUpdate (v : float) | SMulti (vs : list float) | SReset.
Definition stat_op (s : bytes) (o : sop) : outcome bytes :=
  match o with
  | SUpdate v => Stat_Update s v
  | SMulti vs => Stat_UpdateMulti s vs
  | SReset => Ok (Stat_Reset s)
  end.
Fixpoint stat_ops (s : bytes) (os : list sop) : outcome bytes :=
  match os with [] => Ok s | o :: os => let! s := stat_op s o in stat_ops s os end.
(** the observations since the last reset *)
Definition observations (os : list sop) : list float :=
  fold_left (λ acc o, match o with SUpdate v => acc ++ [v] | SMulti vs => acc ++ vs | SReset => [] end) os [].

(** running sum, left to right, starting from +0 *)
Definition sum_spec (vs : list float) : float := fold_left fadd vs f_zero.
(** Welford: mean_k = mean_{k-1} + (v_k - mean_{k-1})/k,
    ss_k = ss_{k-1} + (v_k - mean_{k-1})*(v_k - mean_k); k is the 64 bit count. *)
Definition welford (vs : list float) : Z * float * float :=
  fold_left (λ '(k, mean, ss) v,
    let k' := (k + 1) mod 2^64 in
    let mean' := fadd mean (fdiv (fsub v mean) (f_of_Z k')) in
    (k', mean', fadd ss (fmul (fsub v mean) (fsub v mean')))) vs (0, f_zero, f_zero).
Definition mean_spec (vs : list float) : float := (welford vs).1.2.
Definition ss_spec (vs : list float) : float := (welford vs).2.
Definition count_spec (vs : list float) : Z := Z.of_nat (length vs) mod 2^64.
Definition var_spec (vs : list float) : float :=
  if count_spec vs <? 2 then f_nan else fdiv (ss_spec vs) (f_of_Z (count_spec vs - 1)).

(** everything a reader of the summary sees *)
Definition stat_repr (s : bytes) (vs : list float) : Prop :=
  Stat_Count s = Ok (count_spec vs) ∧ Stat_Sum s = Ok (sum_spec vs) ∧
  Stat_Mean s = Ok (mean_spec vs) ∧ Stat_Variance s = Ok (var_spec vs).
