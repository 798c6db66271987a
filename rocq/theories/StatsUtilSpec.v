(** The code of stats.go:8-25 in exact arithmetic; [nan] stands for math.NaN(). *)
From Verif Require Import Base StatsUtilModel.
From Coq Require Import Reals.
From Flocq Require Import Core.Raux.
Definition meanvarR (nan : R) : list R → outcome (R * R) := meanvar 0%R nan Rplus Rminus Rmult Rdiv Req_bool IZR.
(** stats.go:37-43 in exact arithmetic *)
Definition seeR : list R → R → R := see 0%R Rplus Rminus Rmult Rdiv sqrt IZR.
