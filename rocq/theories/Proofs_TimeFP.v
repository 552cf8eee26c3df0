(** The float32 time axis is close enough to the exact one. *)
From Coq Require Import List ZArith Reals Lia Lra Bool.
From Flocq Require Import Core Relative.
From Verif Require Import Base Arith Model_Time Spec_Time Proofs_Base Proofs_FP Proofs_Time.
Import ListNotations.
Open Scope R_scope.

Lemma rnd32_rel x : 1 <= x -> Rabs (rnd32 x - x) <= / 16777216 * x.
Proof.
  intros H. unfold rnd32.
  assert (P : Prec_gt_0 24) by reflexivity.
  pose proof (relative_error_N_FLT radix2 (-149) 24 P (fun x => negb (Z.even x)) x) as G.
  rewrite (Rabs_right x) in G by lra.
  assert (L : bpow radix2 (-149 + 24 - 1) <= x).
  { apply Rle_trans with (2 := H). change 1 with (bpow radix2 0). apply bpow_le. vm_compute. discriminate. }
  specialize (G L). eapply Rle_trans; [exact G|].
  apply Rmult_le_compat_r; [lra|].
  replace (bpow radix2 (- (24) + 1)) with (/ 8388608); [lra|].
  change (bpow radix2 (- (24) + 1)) with (/ IZR (Zpower_pos 2 23)).
  reflexivity.
Qed.

Lemma time_array32 (k timestep : Z) : (0 < timestep)%Z -> (0 < k)%Z ->
  exists time, get_time_array rnd32 (k * timestep) 0 timestep = Ok time /\
    length time = Z.to_nat k /\
    forall i t, nth_error time i = Some t ->
      t = rnd32 (IZR (k * timestep) - INR i * IZR timestep).
Proof.
  intros Hs Hk.
  destruct (time_array_axis (k * timestep) timestep k Hs Hk eq_refl) as (l & Hl & Hlen & Hn).
  exists (map rnd32 l).
  assert (G : get_time_array rnd32 (k * timestep) 0 timestep = Ok (map rnd32 l)).
  { unfold get_time_array in *. destruct (timestep =? 0)%Z; [discriminate|].
    destruct (_ <? 0)%Z; [discriminate|]. injection Hl as <-. now rewrite map_id. }
  split; auto. rewrite map_length. split; auto.
  intros i t Ht. rewrite nth_error_map in Ht.
  destruct (nth_error l i) as [x|] eqn:E; [|discriminate].
  assert (i < Z.to_nat k)%nat by (rewrite <- Hlen; apply nth_error_Some; congruence).
  rewrite (Hn i H) in E. injection E as <-. now injection Ht as <-.
Qed.

Lemma float32_axis_placement {V} (agg : V -> V -> V) fill (k timestep : Z) (evs : list (nat * V)) :
  (0 < timestep)%Z -> (0 < k <= 1048576)%Z ->
  Forall (fun ev => (fst ev < Z.to_nat k)%nat) evs ->
  exists time out,
    get_time_array rnd32 (k * timestep) 0 timestep = Ok time /\
    ages2time agg fill (1 / 1000000) time
      (map (fun ev => (IZR (k * timestep) - INR (fst ev) * IZR timestep, snd ev)) evs) = Ok out /\
    length out = Z.to_nat k /\
    forall i, (i < Z.to_nat k)%nat ->
      nth_error out i
      = Some (fold_left agg (map snd (filter (fun ev => Nat.eqb (fst ev) i) evs)) fill).
Proof.
  intros Hs Hk Hevs.
  destruct (time_array32 k timestep Hs ltac:(lia)) as (time & Ht & Hlen & Hn).
  assert (Hne : time <> []) by (intros ->; simpl in Hlen; lia).
  destruct (minmax_spec time (1 / 1000000) Hne) as (lo & hi & Hlo & Hhi & _).
  destruct (ages2time_spec agg fill (1 / 1000000) time
    (map (fun ev => (IZR (k * timestep) - INR (fst ev) * IZR timestep, snd ev)) evs) lo hi Hlo Hhi)
    as (out & Ho & Hol & _).
  exists time, out. repeat split; auto; [now rewrite Hol|].
  intros i Hi. eapply ages2time_grid; eauto; [lra| |now rewrite Hlen|now rewrite Hlen].
  intros j t Hj. pose proof (Hn j t Hj) as ->.
  assert (Hjk : (j < Z.to_nat k)%nat) by (rewrite <- Hlen; apply nth_error_Some; congruence).
  assert (Hs1 : 1 <= IZR timestep) by (apply (IZR_le 1); lia).
  set (x := IZR (k * timestep) - INR j * IZR timestep) in *.
  assert (Hx : IZR timestep <= x <= 1048576 * IZR timestep).
  { unfold x. rewrite mult_IZR.
    assert (INR j + 1 <= IZR k).
    { rewrite INR_IZR_INZ, <- plus_IZR. apply IZR_le. lia. }
    assert (IZR k <= 1048576) by (apply IZR_le; lia).
    pose proof (pos_INR j). split; nra. }
  assert (Hr : Rabs (rnd32 x - x) <= / 16777216 * x) by (apply rnd32_rel; lra).
  assert (Hr' : x - / 16777216 * x <= rnd32 x).
  { pose proof (Rle_abs (- (rnd32 x - x))). rewrite Rabs_Ropp in H. lra. }
  repeat split; lra.
Qed.
