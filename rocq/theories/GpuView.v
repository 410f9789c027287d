(** Launching a kernel that writes an array with several dimensions through a view (sdp_MemViewGpu, utility/sdp_mem_view.h): like launch_kernel in
    GpuLaunch.v, with the index of an element as its location (elements with different indices are different memory, C01, C12). *)
From Coq Require Import String.
From Verif Require Import Base Gpu GpuLaunch.
Open Scope Z_scope.

(** sdp_launch_cuda_kernel, sdp_device_wrapper.cpp 27-77 *)
Definition launch_view {A} (plus : A -> A -> A) (name : option string) (blocks threads : dim3) (body : Z * Z * Z -> option (list (op (list Z) A)))
    (st : error) (x : nd A) (st' : error) (x' : nd A) : Prop :=
  if failed st then st' = st /\ x' = x else
  match name with
  | None => st' = ERR_INVALID_ARGUMENT /\ x' = x
  | Some n =>
      if negb (registered n) then st' = ERR_RUNTIME /\ x' = x
      else if negb (grid_ok (to_dim3 blocks) (to_dim3 threads)) then st' = ERR_RUNTIME /\ x' = x
      else st' = st /\ exists m', runs idx_eqb plus (threads3 (to_dim3 blocks) (to_dim3 threads)) body (elem x) m' /\ x' = mk_nd (shape x) m'
  end.
