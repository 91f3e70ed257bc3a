(** Model of the optimizers as the code computes them: with [float] numbers, NaN and infinities included.

    Every view the optimizers use works element by element, so what happens to one parameter depends on that parameter and
    its gradients alone; the definitions are about one parameter of one registration id (that the ids are kept apart is in
    [Optimizer_Model]).  Simplifications: every operation is rounded to [float] and operations are not fused; [powf] of the
    C library is an arbitrary function, of which the theorems say what they need; [sqrt] is the correctly rounded square
    root of IEEE 754; moments and parameters are kept with 32 bits; the learning rate does not change (decaying momentum
    is off). *)
From Coq Require Import List ZArith.
From Flocq Require Import Core IEEE754.BinarySingleNaN IEEE754.Binary IEEE754.Bits.
From Verif Require Import F32_Model Reduce_Model FloatNet_Model.
Import ListNotations.

(** The literals 0.9, 0.999 and 1e-8 as [float] (src/ml/optimizers/adam_optimizer.hpp:33-35, sgdm_optimizer.hpp:23). *)
Definition literal (m e : Z) : F := binary_normalize 24 128 prec_ok emax_ok mode_NE m e false.
Definition beta1 : F := literal 15099494 (-24).
Definition beta2 : F := literal 16760439 (-24).
Definition float_epsilon : F := literal 11258999 (-50).
(** [sqrt] of a [float], and a [float] with the other sign. *)
Definition fsqrt (x : F) : F := b32_sqrt mode_NE x.
Definition fopp (x : F) : F := b32_opp x.

(** What is kept for a parameter: the two moments of Adam (the first one is also the momentum of [SGDMOptimizer]), and the
    parameter. *)
Record cell := { moment1 : F; moment2 : F; parameter : F }.
(** src/ml/optimizers/adam_optimizer.hpp:54-58: before the first change the moments are 0. *)
Definition fresh_cell (w : F) : cell := {| moment1 := float0; moment2 := float0; parameter := w |}.

Section Adam.
Context (powf : F -> F -> F) (lr : F).
(** src/types/tensor_views/element_wise_inverse_tensor_view.hpp:14-24, with the default of its second argument. *)
Definition float_inverse (x : F) : F := fdiv float1 (fadd x float_epsilon).
(** src/ml/optimizers/adam_optimizer.hpp:126-162 [adam_update] *)
Definition float_adam_step (c : cell) (g : F) : cell :=
  let m_hat := fadd (fmul beta1 (moment1 c)) (fmul (fsub float1 beta1) g) in
  let v_hat := fadd (fmul beta2 (moment2 c)) (fmul (fsub float1 beta2) (powf g (of_Z 2))) in
  let temp_lr_by_m_hat := fmul (fopp lr) m_hat in
  let temp_sqrt := fadd (fsqrt v_hat) float_epsilon in
  {| moment1 := m_hat; moment2 := v_hat; parameter := fadd (parameter c) (fmul temp_lr_by_m_hat (float_inverse temp_sqrt)) |}.
Definition float_adam (c : cell) (gradients : list F) : cell := fold_left float_adam_step gradients c.
End Adam.

(** src/ml/optimizers/sgdm_optimizer.hpp:39-65, with [use_decay_momentum_] off. *)
Definition float_momentum_step (lr : F) (c : cell) (g : F) : cell :=
  let momentum := fadd (fmul beta1 (moment1 c)) (fmul lr g) in
  {| moment1 := momentum; moment2 := moment2 c; parameter := fsub (parameter c) momentum |}.
Definition float_momentum (lr : F) (c : cell) (gradients : list F) : cell := fold_left (float_momentum_step lr) gradients c.
(** src/ml/optimizers/mbgd_optimizer.hpp:53-63 *)
Definition float_descent_step (lr w g : F) : F := fsub w (fmul lr g).
