(** Model of sdp_optimized_weighting and sdp_optimised_indexed_weighting: visibility/sdp_opt_weighting.cpp 27-291 and visibility/sdp_opt_weighting.cu 24-275.
    Arithmetic is exact (a division by 0 gives 0), conversions to int do not overflow, offsets are not decreasing, the sorted arrays have the types that the
    kernels take them for (nothing checks this), and none of the arrays is NULL. *)
From Coq Require Import String.
From Verif Require Import Base Mem Checks QNum Tiled GpuLaunch GpuAtom.
From Verif Require SumDiffGpu WeightingGpu.
Import SumDiffGpu(i32). Import WeightingGpu(gpu_buffer).
Open Scope Z_scope.

(** Elements of the output, and the memory that the threads of block b share: the tile and the two sums *)
Inductive oloc := Out (i : Z) | Cell (b c : Z) | Sw (b : Z) | Sw2 (b : Z).
Definition oloc_eqb (x y : oloc) : bool :=
  match x, y with Out i, Out j => i =? j | Cell b c, Cell b' c' => (b =? b') && (c =? c') | Sw b, Sw b' | Sw2 b, Sw2 b' => b =? b' | _, _ => false end.

Section Kernel.
Context (sw sw2 : Z -> oloc) (offsets sorted_tile : nd Z) (uu vv : nd Q) (weight : Z -> option (Z * Q)) (top_left_u top_left_v grid_size robust : Z).
(** The slots of a thread, .cu 69-71, 99-101, 127-129: i_vis = threadIdx.x + start_vis; i_vis < total_vis; i_vis += 512 *)
Definition slots (start total t : Z) : list Z := map (fun k => t + start + 512 * k) (zrange 0 ((total - (t + start) + 511) / 512)).
(** The cell of the tile at (tile_idx_u, tile_idx_v) that a slot is in, if any, .cu 73-86: INDEX_2D(32, 16, ...) *)
Definition cell_of (tile_u tile_v i : Z) : option (option Z) :=
  let* u := rd uu [i] in let* v := rd vv [i] in
  let x := qround u + cdiv grid_size 2 - tile_u in let y := qround v + cdiv grid_size 2 - tile_v in
  Some (if (0 <=? x) && (x <? 32) && (0 <=? y) && (y <? 16) then Some (16 * x + y) else None).
(** .cu 69-93 *)
Fixpoint gather (b tile_u tile_v : Z) (ls : list Z) (k : prog oloc Q) : prog oloc Q :=
  match ls with
  | [] => k
  | i :: ls => match cell_of tile_u tile_v i with
      | None => Stuck
      | Some None => gather b tile_u tile_v ls k
      | Some (Some c) => match weight i with Some (_, w) => Atomic (Cell b c) w (gather b tile_u tile_v ls k) | None => Stuck end
      end
  end.
(** .cu 97-123: pow(5.0 * 1 / pow(10.0, robust_param), 2.0) / (sw2 / sw), computed again after every slot *)
Definition numerator : Q := (let p := 5 / Qpower 10 robust in p * p)%Q.
Fixpoint sums (b tile_u tile_v : Z) (ls : list Z) (r : Q) (k : Q -> prog oloc Q) : prog oloc Q :=
  match ls with
  | [] => k r
  | i :: ls => match cell_of tile_u tile_v i with
      | None => Stuck
      | Some c =>
          let rest := Ld (sw2 b) (fun x2 => Ld (sw b) (fun x => sums b tile_u tile_v ls (numerator / (x2 / x))%Q k)) in
          match c with
          | None => rest
          | Some c => Ld (Cell b c) (fun v => Atomic (sw b) v (Ld (Cell b c) (fun v1 => Ld (Cell b c) (fun v2 => Atomic (sw2 b) (v1 * v2)%Q rest))))
          end
      end
  end.
(** .cu 127-152 *)
Fixpoint scatter (b tile_u tile_v : Z) (ls : list Z) (r : Q) : prog oloc Q :=
  match ls with
  | [] => Done
  | i :: ls => match cell_of tile_u tile_v i with
      | None => Stuck
      | Some None => scatter b tile_u tile_v ls r
      | Some (Some c) => match weight i with Some (o, w) => Ld (Cell b c) (fun v => St (Out o) (w / (1 + r * v))%Q (scatter b tile_u tile_v ls r)) | None => Stuck end
      end
  end.
(** .cu 43-152: thread t of block b *)
Definition briggs_thread (b t : Z) : prog oloc Q :=
  St (Cell b t) 0%Q (St (sw b) 0%Q (St (sw2 b) 0%Q (Sync
    match (let* s := rd offsets [b] in let* e := rd offsets [b + 1] in let* code := rd sorted_tile [s] in Some (s, e - s, code)) with
    | None => Stuck
    | Some (start, total, code) =>
        let tile_u := Z.land code 32767 * 32 + top_left_u in
        let tile_v := Z.shiftr code 15 * 16 + top_left_v in
        let ls := slots start total t in
        Sync (gather b tile_u tile_v ls (Sync (sums b tile_u tile_v ls 0%Q (fun r => Sync (scatter b tile_u tile_v ls r)))))
    end))).
End Kernel.

(** The tiles of 32 x 16 pixels, .cpp 56-67 and 177-188 *)
Definition opt_tiles (grid_size : Z) : tparams := mk_tparams 0 grid_size 32 16 0.
(** sdp_opt_briggs_bucket_gpu, .cu 24-153.  [robust_bits]: the bits of the double robust_param; the kernel has an int parameter, for which
    the first four bytes are taken.  *)
Definition bucket_thread (robust_bits grid_size : Z) (offsets sorted_tile : nd Z) (uu vv sorted_weight : nd Q) : Z -> Z -> prog oloc Q :=
  briggs_thread Sw Sw2 offsets sorted_tile uu vv (fun i => let* w := rd sorted_weight [i] in Some (i, w))
    (top_left (opt_tiles grid_size) 32) (top_left (opt_tiles grid_size) 16) grid_size (i32 robust_bits).
(** sdp_opt_briggs_index_gpu, .cu 158-273.  The three arrays in dynamic shared memory, 183-185, are at the same address: both sums are element 0 of the tile.
    (sorted_index is only looked at for slots inside of the tile; there is one channel index, 0, and the break at 213 is not taken.)
    [weights]: all of them, in one dimension. *)
Definition indexed_thread (robust_bits grid_size : Z) (offsets sorted_tile : nd Z) (uu vv : nd Q) (sorted_index : nd Z) (weights : nd Q) : Z -> Z -> prog oloc Q :=
  briggs_thread (fun b => Cell b 0) (fun b => Cell b 0) offsets sorted_tile uu vv (fun i => let* j := rd sorted_index [i] in let* w := rd weights [j] in Some (j, w))
    (top_left (opt_tiles grid_size) 32) (top_left (opt_tiles grid_size) 16) grid_size (i32 robust_bits).

(** The locations that there are *)
Definition there (out : nd Q) (l : oloc) : Prop :=
  match l with Out i => in_shape (shape out) [i] = true | Cell _ c => 0 <= c < 512 | _ => True end.
(** What the call may do: None stands for undefined behaviour.  [doubles]: the types have a kernel; [name]: its name; [bufs]: the arrays for which there has
    to be a pointer to GPU memory, in order.  .cpp 69-158 and 191-291 *)
Definition opt_weighting (name : string) (uvw vis weights output : option mem) (doubles : bool) (bufs : list (option mem)) (grid_size : Z)
    (kernel : Z -> Z -> prog oloc Q) (out : nd Q) (st : error) (res : option (error * nd Q)) : Prop :=
  if failed st then res = Some (st, out) else
  let '(md, st) := get_vis_metadata vis st in
  let '(nt, nb, nc, np) := match md with Some (_, _, nt, nb, nc, np) => (nt, nb, nc, np) | None => (0, 0, 0, 0) end in
  let st := check_weights weights MEM_VOID (location vis) nt nb nc np (check_uvw uvw MEM_VOID (location vis) nt nb st) in
  if location vis =? MEM_CPU then res = Some (if doubles then ERR_MEM_LOCATION else ERR_DATA_TYPE, out) else
  if negb (location vis =? MEM_GPU) then res = Some (st, out) else
  let st := fold_left (fun st m => gpu_buffer m st) bufs (check_location output MEM_GPU st) in
  if failed st then res = Some (st, out) else
  if negb doubles then res = Some (ERR_INVALID_ARGUMENT, out) else
  let blocks := to_dim3 (num_tiles (opt_tiles grid_size) - 1, 1, 1) in
  if negb (registered name) || negb (grid_ok blocks (to_dim3 (512, 1, 1))) then res = Some (ERR_RUNTIME, out) else
  exists m : oloc -> Q, (forall i, m (Out i) = elem out [i]) /\
    ((exists m', launch oloc_eqb Qplus (fst (fst blocks)) 512 kernel m m' /\ res = Some (st, mk_nd (shape out) (fun i => m' (Out (hd 0 i))))) \/
     (out_of_bounds oloc_eqb Qplus (fst (fst blocks)) 512 (there out) kernel m /\ res = None)).
(** sdp_optimized_weighting, .cpp 27-159, on double arrays of the sizes of the documentation *)
Definition optimized_weighting (uvw freqs vis weights suu svv sweight stile offs points output : option mem) (robust_bits grid_size : Z)
    (offsets sorted_tile : nd Z) (uu vv sorted_weight out : nd Q) : error -> option (error * nd Q) -> Prop :=
  opt_weighting "sdp_opt_briggs_bucket_gpu<double, double>" uvw vis weights output
    ((mtype uvw =? MEM_DOUBLE) && (mtype weights =? MEM_DOUBLE) && (mtype freqs =? MEM_DOUBLE)) [suu; svv; sweight; stile; offs; points; output] grid_size
    (bucket_thread robust_bits grid_size offsets sorted_tile uu vv sorted_weight) out.
(** sdp_optimised_indexed_weighting, .cpp 162-291 *)
Definition indexed_weighting (uvw vis weights suu svv sidx stile offs points output : option mem) (robust_bits grid_size : Z)
    (offsets sorted_tile : nd Z) (uu vv : nd Q) (sorted_index : nd Z) (weights_d out : nd Q) : error -> option (error * nd Q) -> Prop :=
  opt_weighting "sdp_opt_briggs_index_gpu<double, double, double>" uvw vis weights output
    ((mtype uvw =? MEM_DOUBLE) && (mtype weights =? MEM_DOUBLE)) [suu; svv; weights; sidx; stile; offs; points; output] grid_size
    (indexed_thread robust_bits grid_size offsets sorted_tile uu vv sorted_index weights_d) out.
