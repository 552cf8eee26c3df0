(** IEEE rounding to nearest even (without overflow) satisfies [fp_ok]. *)
From Coq Require Import Reals ZArith Lia Lra.
From Flocq Require Import Core.
From Verif Require Import Base Arith.

Definition rnd64 (x : R) : R := round radix2 (FLT_exp (-1074) 53) ZnearestE x.
Definition rnd32 (x : R) : R := round radix2 (FLT_exp (-149) 24) ZnearestE x.

Lemma gen1 emin prec : (0 < prec)%Z -> (emin <= 0)%Z -> (emin <= 1 - prec)%Z ->
  generic_format radix2 (FLT_exp emin prec) 1.
Proof.
  intros Hp He Hq. change 1%R with (bpow radix2 0).
  apply generic_format_bpow. unfold FLT_exp. lia.
Qed.

Lemma incl_32_64 x : generic_format radix2 (FLT_exp (-149) 24) x ->
  generic_format radix2 (FLT_exp (-1074) 53) x.
Proof.
  apply generic_inclusion_mag. intros _. unfold FLT_exp. lia.
Qed.

Lemma fp_ok_64_32 : fp_ok rnd64 rnd32.
Proof.
  assert (V64 : Valid_exp (FLT_exp (-1074) 53)) by (apply FLT_exp_valid; reflexivity).
  assert (V32 : Valid_exp (FLT_exp (-149) 24)) by (apply FLT_exp_valid; reflexivity).
  constructor; unfold rnd64, rnd32; intros.
  - apply round_le; auto with typeclass_instances.
  - apply round_generic; auto with typeclass_instances. apply generic_format_round; auto with typeclass_instances.
  - apply round_0; auto with typeclass_instances.
  - apply round_generic; auto with typeclass_instances. apply gen1; lia.
  - apply round_le; auto with typeclass_instances.
  - apply round_generic; auto with typeclass_instances. apply generic_format_round; auto with typeclass_instances.
  - apply round_0; auto with typeclass_instances.
  - apply round_generic; auto with typeclass_instances. apply incl_32_64.
    apply generic_format_round; auto with typeclass_instances.
Qed.

Lemma fp_ok_64_64 : fp_ok rnd64 rnd64.
Proof.
  destruct fp_ok_64_32. constructor; auto.
Qed.

Lemma fp_ok_32_32 : fp_ok rnd32 rnd32.
Proof.
  destruct fp_ok_64_32. constructor; auto. unfold rnd32.
  assert (V32 : Valid_exp (FLT_exp (-149) 24)) by (apply FLT_exp_valid; reflexivity).
  apply round_generic; auto with typeclass_instances. apply gen1; lia.
Qed.
