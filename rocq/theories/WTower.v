(** Model of the CPU kernels of grid_data/sdp_gridder_wtower_uvw.cpp.  Coordinates are exact
    rationals, sub-grid, visibility and kernel values elements of a commutative ring (real or
    complex numbers without rounding; the conversions between float and double are identities). *)
From Verif Require Import Base CRing Clamp QNum.
Open Scope Z_scope.

(** struct sdp_GridderWtowerUVW, 18-37 (the fields used by the kernels).  The kernels are used
    through a flat pointer to a table with (oversampling + 1) rows of support entries (625-639). *)
Record wplan (A : cring) := mk_wplan {
  subgrid_size : Z; theta : Q; w_step : Q;
  support : Z; oversampling : Z; w_support : Z; w_oversampling : Z;
  uv_kernel : nd A; w_kernel : nd A }.
Arguments subgrid_size {_}. Arguments theta {_}. Arguments w_step {_}. Arguments support {_}.
Arguments oversampling {_}. Arguments w_support {_}. Arguments w_oversampling {_}.
Arguments uv_kernel {_}. Arguments w_kernel {_}.

Section Kernels.
  Context {A : cring} (plan : wplan A) (w_plane off_u off_v off_w : Z) (freq0_hz dfreq_hz : Q)
    (start_row end_row : Z) (uvws : nd Q) (start_chs end_chs : nd Z).

  (** degrid, 44-175.  Overflow of int sums is not modelled; the conversion of a rounded double
      to int is undefined when it does not fit. *)
  Definition degrid (subgrids vis : nd A) : option (nd A) :=
    let half_subgrid := cdiv (subgrid_size plan) 2 in
    let oversample := oversampling plan in
    let w_oversample := w_oversampling plan in
    let theta_ov := (theta plan * inject_Z oversample)%Q in
    let w_step_ov := (1 / w_step plan * inject_Z w_oversample)%Q in
    let half_sg_size_ov := (half_subgrid - cdiv (support plan) 2 + 1) * oversample in
    for_ start_row end_row (fun i_row vis =>
      let* start_ch := rd start_chs [i_row] in
      let* end_ch := rd end_chs [i_row] in
      if start_ch >=? end_ch then Some vis else
      let* uvw_0 := rd uvws [i_row; 0] in
      let* uvw_1 := rd uvws [i_row; 1] in
      let* uvw_2 := rd uvws [i_row; 2] in
      let min_w := (inject_Z (w_plane + off_w - 1) * w_step plan)%Q in
      let max_w := (inject_Z (w_plane + off_w) * w_step plan)%Q in
      let (start_ch, end_ch) := clamp_inline uvw_2 freq0_hz dfreq_hz start_ch end_ch min_w max_w in
      if start_ch >=? end_ch then Some vis else
      let s_uvw0 := (freq0_hz / C_0)%Q in
      let s_duvw := (dfreq_hz / C_0)%Q in
      let uvw0_0 := (uvw_0 * s_uvw0 - inject_Z off_u / theta plan)%Q in
      let uvw0_1 := (uvw_1 * s_uvw0 - inject_Z off_v / theta plan)%Q in
      let uvw0_2 := (uvw_2 * s_uvw0 - inject_Z (off_w + w_plane - 1) * w_step plan)%Q in
      let duvw_0 := (uvw_0 * s_duvw)%Q in
      let duvw_1 := (uvw_1 * s_duvw)%Q in
      let duvw_2 := (uvw_2 * s_duvw)%Q in
      let u_min := Qfloor (theta plan * (uvw0_0 + inject_Z start_ch * duvw_0)) in
      let u_max := Qceiling (theta plan * (uvw0_0 + inject_Z (end_ch - 1) * duvw_0)) in
      let v_min := Qfloor (theta plan * (uvw0_1 + inject_Z start_ch * duvw_1)) in
      let v_max := Qceiling (theta plan * (uvw0_1 + inject_Z (end_ch - 1) * duvw_1)) in
      if (u_min <? - half_subgrid) || (u_max >=? half_subgrid) ||
         (v_min <? - half_subgrid) || (v_max >=? half_subgrid) then Some vis else
      for_ start_ch end_ch (fun c vis =>
        let u := (uvw0_0 + inject_Z c * duvw_0)%Q in
        let v := (uvw0_1 + inject_Z c * duvw_1)%Q in
        let w := (uvw0_2 + inject_Z c * duvw_2)%Q in
        let* ru := to_int (qround (u * theta_ov)) in
        let* rv := to_int (qround (v * theta_ov)) in
        let* iw0_ov := to_int (qround (w * w_step_ov)) in
        let iu0_ov := ru + half_sg_size_ov in
        let iv0_ov := rv + half_sg_size_ov in
        let iu0 := cdiv iu0_ov oversample in
        let iv0 := cdiv iv0_ov oversample in
        let u_off := cmod iu0_ov oversample * support plan in
        let v_off := cmod iv0_ov oversample * support plan in
        let w_off := cmod iw0_ov w_oversample * w_support plan in
        let* local_vis := for_ 0 (w_support plan) (fun iw local_vis =>
          let* local_vis_u := for_ 0 (support plan) (fun iu local_vis_u =>
            let ix_u := iu0 + iu in
            let* local_vis_v := for_ 0 (support plan) (fun iv local_vis_v =>
              let ix_v := iv0 + iv in
              let* k := rd (uv_kernel plan) [v_off + iv] in
              let* s := rd subgrids [iw; ix_u; ix_v] in
              Some (local_vis_v + k * s)%cr) r0 in
            let* k := rd (uv_kernel plan) [u_off + iu] in
            Some (local_vis_u + k * local_vis_v)%cr) r0 in
          let* k := rd (w_kernel plan) [w_off + iw] in
          Some (local_vis + k * local_vis_u)%cr) r0 in
        let* x := rd vis [i_row; c] in
        wr vis [i_row; c] (x + local_vis)%cr) vis) vis.

  (** grid, 351-482 *)
  Definition grid (vis subgrids : nd A) : option (nd A) :=
    let half_subgrid := cdiv (subgrid_size plan) 2 in
    let oversample := oversampling plan in
    let w_oversample := w_oversampling plan in
    let theta_ov := (theta plan * inject_Z oversample)%Q in
    let w_step_ov := (1 / w_step plan * inject_Z w_oversample)%Q in
    let half_sg_size_ov := (half_subgrid - cdiv (support plan) 2 + 1) * oversample in
    for_ start_row end_row (fun i_row subgrids =>
      let* start_ch := rd start_chs [i_row] in
      let* end_ch := rd end_chs [i_row] in
      if start_ch >=? end_ch then Some subgrids else
      let* uvw_0 := rd uvws [i_row; 0] in
      let* uvw_1 := rd uvws [i_row; 1] in
      let* uvw_2 := rd uvws [i_row; 2] in
      let min_w := (inject_Z (w_plane + off_w - 1) * w_step plan)%Q in
      let max_w := (inject_Z (w_plane + off_w) * w_step plan)%Q in
      let (start_ch, end_ch) := clamp_inline uvw_2 freq0_hz dfreq_hz start_ch end_ch min_w max_w in
      if start_ch >=? end_ch then Some subgrids else
      let s_uvw0 := (freq0_hz / C_0)%Q in
      let s_duvw := (dfreq_hz / C_0)%Q in
      let uvw0_0 := (uvw_0 * s_uvw0 - inject_Z off_u / theta plan)%Q in
      let uvw0_1 := (uvw_1 * s_uvw0 - inject_Z off_v / theta plan)%Q in
      let uvw0_2 := (uvw_2 * s_uvw0 - inject_Z (off_w + w_plane - 1) * w_step plan)%Q in
      let duvw_0 := (uvw_0 * s_duvw)%Q in
      let duvw_1 := (uvw_1 * s_duvw)%Q in
      let duvw_2 := (uvw_2 * s_duvw)%Q in
      let u_min := Qfloor (theta plan * (uvw0_0 + inject_Z start_ch * duvw_0)) in
      let u_max := Qceiling (theta plan * (uvw0_0 + inject_Z (end_ch - 1) * duvw_0)) in
      let v_min := Qfloor (theta plan * (uvw0_1 + inject_Z start_ch * duvw_1)) in
      let v_max := Qceiling (theta plan * (uvw0_1 + inject_Z (end_ch - 1) * duvw_1)) in
      if (u_min <? - half_subgrid) || (u_max >=? half_subgrid) ||
         (v_min <? - half_subgrid) || (v_max >=? half_subgrid) then Some subgrids else
      for_ start_ch end_ch (fun c subgrids =>
        let u := (uvw0_0 + inject_Z c * duvw_0)%Q in
        let v := (uvw0_1 + inject_Z c * duvw_1)%Q in
        let w := (uvw0_2 + inject_Z c * duvw_2)%Q in
        let* ru := to_int (qround (u * theta_ov)) in
        let* rv := to_int (qround (v * theta_ov)) in
        let* iw0_ov := to_int (qround (w * w_step_ov)) in
        let iu0_ov := ru + half_sg_size_ov in
        let iv0_ov := rv + half_sg_size_ov in
        let iu0 := cdiv iu0_ov oversample in
        let iv0 := cdiv iv0_ov oversample in
        let u_off := cmod iu0_ov oversample * support plan in
        let v_off := cmod iv0_ov oversample * support plan in
        let w_off := cmod iw0_ov w_oversample * w_support plan in
        let* local_vis := rd vis [i_row; c] in
        for_ 0 (w_support plan) (fun iw subgrids =>
          let* k := rd (w_kernel plan) [w_off + iw] in
          let local_vis_w := (k * local_vis)%cr in
          for_ 0 (support plan) (fun iu subgrids =>
            let* k := rd (uv_kernel plan) [u_off + iu] in
            let local_vis_u := (k * local_vis_w)%cr in
            let ix_u := iu0 + iu in
            for_ 0 (support plan) (fun iv subgrids =>
              let ix_v := iv0 + iv in
              let* k := rd (uv_kernel plan) [v_off + iv] in
              let* s := rd subgrids [iw; ix_u; ix_v] in
              wr subgrids [iw; ix_u; ix_v] (s + k * local_vis_u)%cr) subgrids) subgrids) subgrids) subgrids) subgrids.
End Kernels.

(** sdp_gridder_wtower_uvw_degrid / _grid: dfreq 0 is replaced by 10 (677, 946) and a negative
    row bound selects all rows (689-693, 958-962). *)
Definition driver_dfreq (dfreq_hz : Q) : Q := if Qeq_bool dfreq_hz 0 then 10 # 1 else dfreq_hz.
Definition driver_rows (uvws : nd Q) (start_row end_row : Z) : Z * Z :=
  if (start_row <? 0) || (end_row <? 0) then (0, dim uvws 0) else (start_row, end_row).
