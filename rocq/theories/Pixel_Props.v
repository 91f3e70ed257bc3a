(** C65 - pixel storage. *)
From Coq Require Import NArith ZArith Bool Reals Lra Lia.
From Flocq Require Import Core.Core IEEE754.Binary IEEE754.Bits.
From Verif Require Import Outcome F32_Model F32_Proofs Pixel_Model Pixel_Proofs.

(** C65: storing is defined for every float, NaN and infinities included, and gives 0 to 255. *)
Theorem pixel_store_defined :
  forall v, exists k, pixel_store v = Ok k /\ (k <= 255)%N.
Proof.
  intro v. destruct (finite v) eqn:F.
  - destruct (store_finite v F) as [E B]. eexists. split; [exact E|]. lia.
  - rewrite (store_infinite v F). eexists. split; [reflexivity|]. destruct (flt (of_Z 1) v); lia.
Qed.
Print Assumptions pixel_store_defined.

(** C65: each of the 256 pixel values is stored exactly, so storing twice equals storing once. *)
Theorem pixel_store_twice :
  (forall k, (k < 256)%N -> pixel_store (pixel_value k) = Ok k) /\
  (forall v k, pixel_store v = Ok k -> pixel_store (pixel_value k) = Ok k).
Proof.
  split; [exact pixel_exact|]. intros v k E. apply pixel_exact. destruct (pixel_store_defined v) as (j & E' & B).
  rewrite E in E'. injection E' as <-. lia.
Qed.
Print Assumptions pixel_store_twice.

(** C65: a value in [0,1] is read back with an error below 1/255 + 2^-24. *)
Theorem pixel_store_error :
  forall v, finite v = true -> (0 <= B2R 24 128 v <= 1)%R ->
    exists k, pixel_store v = Ok k /\ (Rabs (B2R 24 128 (pixel_value k) - B2R 24 128 v) < 1 / 255 + bpow radix2 (-24))%R.
Proof. exact store_error. Qed.
Print Assumptions pixel_store_error.

(** C65: values outside are clamped (so an image given as 0..255 becomes black and white), NaN is
    0, larger values never give smaller pixels. *)
Theorem pixel_store_clamps :
  (forall v, finite v = true -> (1 <= B2R 24 128 v)%R -> pixel_store v = Ok 255%N) /\
  (forall v, finite v = true -> (B2R 24 128 v <= 0)%R -> pixel_store v = Ok 0%N) /\
  (forall v, is_nan 24 128 v = true -> pixel_store v = Ok 0%N) /\
  (forall v w, finite v = true -> finite w = true -> (B2R 24 128 v <= B2R 24 128 w)%R ->
     exists a b, pixel_store v = Ok a /\ pixel_store w = Ok b /\ (a <= b)%N).
Proof.
  split; [|split; [|split; [|exact store_monotone]]].
  - intros v F H. destruct (store_finite v F) as [E _]. rewrite Rmin_right, Rmax_right in E by lra.
    replace (1 * 255)%R with (IZR 255) in E by lra. rewrite (rnd_id (IZR 255)) in E by (apply F32_Z; cbn; lia). now rewrite Zfloor_IZR in E.
  - intros v F H. destruct (store_finite v F) as [E _]. rewrite Rmin_left, Rmax_left in E by lra.
    rewrite Rmult_0_l, rnd_0 in E. now rewrite (Zfloor_IZR 0) in E.
  - intros v H. destruct v; try discriminate H. reflexivity.
Qed.
Print Assumptions pixel_store_clamps.

(** 0.5 is stored as 127 and read as 127/255; 200.0 as 255. *)
Example pixel_ex :
  pixel_store (of_bits 0x3F000000) = Ok 127%N /\ to_bits (pixel_value 127) = 0x3EFEFEFF%N /\ pixel_store (of_bits 0x43480000) = Ok 255%N.
Proof. vm_compute. repeat split. Qed.
