(** Model of tile counting, bucket sort and tile indexing in GPU memory: visibility/sdp_tiled_functions.cu 62-126 and 131-294, and their launches in sdp_tiled_functions.cpp.
    As in Tiled.v, arithmetic on coordinates is exact and conversions to int do not overflow; counts are below 2^31; arrays are C-contiguous.  The prefix sum is in PrefixGpu.v. *)
From Coq Require Import String.
From Verif Require Import Base QNum Clamp Tiled Gpu GpuLaunch GpuFetch DftGpu.
From Verif Require PhaseRotateGpu.
Import PhaseRotateGpu(u32).
Open Scope Z_scope.

(** .cu 104-113, 184-193, 262-271 *)
Definition gpu_ranges (P : tparams) (grid_u grid_v : Z) : Z * Z * Z * Z :=
  let rel_u := grid_u - top_left P (tile_u P) in
  let rel_v := grid_v - top_left P (tile_v P) in
  (floor_div (rel_u - support P) (tile_u P), ceil_div (rel_u + support P + 1) (tile_u P),
   floor_div (rel_v - support P) (tile_v P), ceil_div (rel_v + support P + 1) (tile_v P)).

(** The part that the kernels share, .cu 80-125, 155-209, 234-286, for the thread (x, y, z): [hit] is what is done for a tile, [skip] the else branch *)
Definition tile_thread {X} (P : tparams) (nt nb nc : Z) (uvw freqs : nd Q) (hit : Z -> Q -> Q -> Z -> Z -> option (list X)) (skip : list X) (id : Z * Z * Z) : option (list X) :=
  let '(x, y, z) := id in
  let i_baseline := u32 x in let i_channel := u32 y in let i_time := u32 z in
  if (nb <=? i_baseline) || (nc <=? i_channel) || (nt <=? i_time) then Some [] else
  let* f := rd freqs [i_channel] in
  let* u := rd uvw [i_time; i_baseline; 0] in
  let* v := rd uvw [i_time; i_baseline; 1] in
  let pos_u := position P u f in let pos_v := position P v f in
  let grid_u := grid_pos P pos_u in let grid_v := grid_pos P pos_v in
  if inside P grid_u grid_v then
    let '(u0, u1, v0, v1) := gpu_ranges P grid_u grid_v in
    let i_vis := nc * (nb * i_time + i_baseline) + i_channel in
    for_ v0 v1 (fun pv => for_ u0 u1 (fun pu ops => let* o := hit i_vis pos_u pos_v pu pv in Some (ops ++ o))) []
  else Some skip.

(** The elements of num_points_in_tiles and of num_skipped *)
Inductive cell := Pts (i : Z) | Skp (i : Z).
Definition cell_eqb (a b : cell) : bool := match a, b with Pts i, Pts j | Skp i, Skp j => i =? j | _, _ => false end.
(** sdp_tile_count_simple_gpu, .cu 62-126; [n]: the size of num_points_in_tiles *)
Definition count_thread (P : tparams) (nt nb nc : Z) (uvw freqs : nd Q) (n : Z) : Z * Z * Z -> option (list (op cell Z)) :=
  tile_thread P nt nb nc uvw freqs
    (fun _ _ _ pu pv => let t := pu + pv * num_tiles_u P in if in_shape [n] [t] then Some [Add (Pts t) 1] else None) [Add (Skp 0) 1].
(** cpp 399-455, for arrays of one of the two precisions that the kernel has: status, num_points_in_tiles and num_skipped after the kernel *)
Definition gpu_tile_count (name : string) (P : tparams) (nt nb nc : Z) (uvw freqs : nd Q) (pts skipped : nd Z) (st st' : error) (pts' skipped' : nd Z) : Prop :=
  if failed st then st' = st /\ pts' = pts /\ skipped' = skipped else
  if negb (registered name) || negb (grid_ok (to_dim3 (vis_blocks nb nc nt)) (to_dim3 vis_threads)) then st' = ERR_RUNTIME /\ pts' = pts /\ skipped' = skipped else
  st' = st /\ exists m', runs cell_eqb Z.add (threads3 (to_dim3 (vis_blocks nb nc nt)) (to_dim3 vis_threads)) (count_thread P nt nb nc uvw freqs (dim pts 0))
      (fun l => match l with Pts i => elem pts [i] | Skp i => elem skipped [i] end) m' /\
    pts' = mk_nd (shape pts) (fun i => m' (Pts (nth 0 i 0))) /\ skipped' = mk_nd (shape skipped) (fun i => m' (Skp (nth 0 i 0))).

(** What is stored in the sorted arrays: a coordinate, a visibility, a weight or an int *)
Inductive value {V W : Type} := VCoord (q : Q) | VVis (v : V) | VWeight (w : W) | VInt (z : Z).
Arguments value : clear implicits.
(** sdp_bucket_sort_simple_gpu, .cu 131-209.  The output arrays are, in the order of the stores: sorted_uu, sorted_vv, sorted_vis, sorted_weight, sorted_tile. *)
Definition sort_thread {V W} (P : tparams) (nt nb nc : Z) (uvw freqs : nd Q) (vis : nd V) (weight : nd W) : Z * Z * Z -> option (list (job (value V W))) :=
  tile_thread P nt nb nc uvw freqs
    (fun i_vis pu_ pv_ pu pv => let* v := rd vis [i_vis] in let* w := rd weight [i_vis] in
       Some [(pu + pv * num_tiles_u P, [VCoord pu_; VCoord pv_; VVis v; VWeight w; VInt (pv * 32768 + pu)])]) [].
(** sdp_tiled_indexing_gpu, .cu 215-286: sorted_uu, sorted_vv, sorted_vis_index, sorted_tile *)
Definition index_thread (P : tparams) (nt nb nc : Z) (uvw freqs : nd Q) : Z * Z * Z -> option (list (job (value unit unit))) :=
  tile_thread P nt nb nc uvw freqs
    (fun i_vis pu_ pv_ pu pv => Some [(pu + pv * num_tiles_u P, [VCoord pu_; VCoord pv_; VInt i_vis; VInt (pv * 32768 + pu)])]) [].
(** cpp 612-687: the launch of the bucket sort.  The arrays after the kernel are in [m']. *)
Definition gpu_bucket_sort {V W} (name : string) (P : tparams) (nt nb nc : Z) (uvw freqs : nd Q) (vis : nd V) (weight : nd W) (st : error) (m : memory (value V W)) (st' : error) (m' : memory (value V W)) : Prop :=
  launch_fetch (Some name) (vis_blocks nb nc nt) vis_threads (sort_thread P nt nb nc uvw freqs vis weight) st m st' m'.
(** cpp 818-880: the launch of the indexing *)
Definition gpu_tiled_indexing (name : string) (P : tparams) (nt nb nc : Z) (uvw freqs : nd Q) (st : error) (m : memory (value unit unit)) (st' : error) (m' : memory (value unit unit)) : Prop :=
  launch_fetch (Some name) (vis_blocks nb nc nt) vis_threads (index_thread P nt nb nc uvw freqs) st m st' m'.
