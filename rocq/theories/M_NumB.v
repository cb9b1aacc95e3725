(** IEEE-754 binary64 once more, as the type of the doubles proper: Flocq's [binary_float 53 1024], whose operations
    are proved correct against real arithmetic there.  [F64num] (M_NumF) computes with raw significands and
    exponents, which makes it suitable for running the model; a value of [B64num] is such a pair together with
    the proof that it is a double.  The operations agree ([b64_f64]). *)
From Coq Require Import ZArith Reals.
From Verif Require Export M_NumF.
From Flocq Require Import Core BinarySingleNaN.

Notation B64 := (binary_float 53 1024).
Global Instance b64_prec : Prec_gt_0 53. Proof. reflexivity. Qed.
Global Instance b64_emax : Prec_lt_emax 53 1024. Proof. reflexivity. Qed.

Definition b64_ofZ (z : Z) : B64 := binary_normalize 53 1024 _ _ mode_NE z 0 false.

(** [double] with round to nearest even. *)
Definition B64num : num := {|
  nT := B64;
  nofZ := b64_ofZ;
  nadd := Bplus mode_NE;
  nsub := Bminus mode_NE;
  nmul := Bmult mode_NE;
  ndiv := Bdiv mode_NE;
  nopp := Bopp; nabs := Babs;
  nsqrt := Bsqrt mode_NE;
  nltb := Bltb; nleb := Bleb; neqb := Beqb;
  nfloor := fun a => f64_index (sf_floor (B2SF a));
  nceil := fun a => f64_index (sf_ceil (B2SF a));
|}.

Lemma round_nearest_even_choice s z l : SpecFloat.round_nearest_even z l = choice_mode mode_NE s z l.
Proof.
  destruct l as [|[]]; simpl; try done; unfold Round.cond_incr; by destruct (Z.even z).
Qed.
Lemma round_aux_same s m e l : SpecFloat.binary_round_aux 53 1024 s m e l = binary_round_aux 53 1024 mode_NE s m e l.
Proof.
  unfold SpecFloat.binary_round_aux, binary_round_aux. destruct (SpecFloat.shr_fexp _ _ _ _) as [mrs e'].
  by rewrite (round_nearest_even_choice s).
Qed.
Lemma round_same s m e : SpecFloat.binary_round 53 1024 s m e = binary_round 53 1024 mode_NE s m e.
Proof.
  unfold SpecFloat.binary_round, binary_round, shl_align_fexp. destruct (shl_align _ _ _) as [mz ez]. apply round_aux_same.
Qed.
Lemma normalize_same m e sz :
  SpecFloat.binary_normalize 53 1024 m e sz = B2SF (binary_normalize 53 1024 _ _ mode_NE m e sz).
Proof. destruct m; simpl; [done|rewrite B2SF_SF2B; apply round_same..]. Qed.

(** Both instances compute the same. *)
Theorem b64_f64 (x y : B64) (z : Z) :
  B2SF (@nofZ B64num z) = @nofZ F64num z /\
  B2SF (@nadd B64num x y) = @nadd F64num (B2SF x) (B2SF y) /\
  B2SF (@nsub B64num x y) = @nsub F64num (B2SF x) (B2SF y) /\
  B2SF (@nmul B64num x y) = @nmul F64num (B2SF x) (B2SF y) /\
  B2SF (@ndiv B64num x y) = @ndiv F64num (B2SF x) (B2SF y) /\
  B2SF (@nopp B64num x) = @nopp F64num (B2SF x) /\
  B2SF (@nabs B64num x) = @nabs F64num (B2SF x) /\
  B2SF (@nsqrt B64num x) = @nsqrt F64num (B2SF x) /\
  @nltb B64num x y = @nltb F64num (B2SF x) (B2SF y) /\
  @nleb B64num x y = @nleb F64num (B2SF x) (B2SF y) /\
  @neqb B64num x y = @neqb F64num (B2SF x) (B2SF y) /\
  @nfloor B64num x = @nfloor F64num (B2SF x) /\
  @nceil B64num x = @nceil F64num (B2SF x).
Proof.
  repeat split; cbn [nofZ nadd nsub nmul ndiv nopp nabs nsqrt B64num F64num].
  - symmetry. apply normalize_same.
  - destruct x as [sx|sx| |sx mx ex Bx], y as [sy|sy| |sy my ey By]; try (simpl; by (reflexivity || case Bool.eqb)).
    symmetry. apply normalize_same.
  - destruct x as [sx|sx| |sx mx ex Bx], y as [sy|sy| |sy my ey By]; try (simpl; by (reflexivity || case Bool.eqb)).
    simpl. unfold Zminus. rewrite <- cond_Zopp_negb. symmetry. apply normalize_same.
  - destruct x as [sx|sx| |sx mx ex Bx], y as [sy|sy| |sy my ey By]; try reflexivity.
    simpl. rewrite B2SF_SF2B. symmetry. apply round_aux_same.
  - destruct x as [sx|sx| |sx mx ex Bx], y as [sy|sy| |sy my ey By]; try reflexivity.
    simpl. rewrite B2SF_SF2B. unfold f64_prec, f64_emax. destruct (SFdiv_core_binary _ _ _ _ _ _) as [[mz ez] lz]. symmetry. apply round_aux_same.
  - by destruct x.
  - by destruct x.
  - destruct x as [[]|[]| |[] mx ex Bx]; try reflexivity.
    simpl. rewrite B2SF_SF2B. unfold f64_prec, f64_emax. destruct (SFsqrt_core_binary _ _ _ _) as [[mz ez] lz]. symmetry. apply round_aux_same.
Qed.
