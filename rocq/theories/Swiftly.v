(** Model of fourier_transforms/sdp_swiftly.cpp in exact arithmetic, on two-dimensional arrays.  The
    arrays are complex double arrays in CPU memory (the type and location checks of
    sdp_mem_check_and_view are not modelled; the number of dimensions is).  pocketfft::c2c is an
    external library: it is modelled by its documented result, the scaled discrete Fourier transform.
    Strides are modelled only through the array index (but see Swiftly2.v), and int64 overflow is not
    modelled. *)
From Verif Require Import Base CRing Cplx Fft FftSpec.
Open Scope Z_scope.

(** struct sdp_SwiFTly 10-21 (W is only used to make the tables) *)
Record swiftly := mk_sw { image_size : Z; yN_size : Z; xM_size : Z; tab_Fb : nd R; tab_Fn : nd R }.

(** (xM_size * yN_size) / image_size, lines 89, 283, 359, ... *)
Definition xM_yN (sw : swiftly) : Z := cdiv (xM_size sw * yN_size sw) (image_size sw).

(** sdp_swiftly_create 23-126.  [pswf] is the table written by sdp_generate_pswf (modelled in Pswf.v). *)
Definition create (image yN xM : Z) (pswf : nd R) : option (error * option swiftly) :=
  if (image <=? 0) || (xM <=? 0) || (yN <=? 0) then Some (ERR_INVALID_ARGUMENT, None)
  else if negb (cmod image xM =? 0) then Some (ERR_INVALID_ARGUMENT, None)
  else if negb (cmod image yN =? 0) then Some (ERR_INVALID_ARGUMENT, None)
  else if negb (cmod (xM * yN) image =? 0) then Some (ERR_INVALID_ARGUMENT, None)
  else if negb (cmod xM 2 =? 0) then Some (ERR_INVALID_ARGUMENT, None)
  else if negb (cmod yN 2 =? 0) then Some (ERR_INVALID_ARGUMENT, None)
  else
    let m := cdiv (xM * yN) image in
    let xM_step := cdiv image xM in
    let Fn_offset := cmod (cdiv yN 2) xM_step in
    let* Fn := for_ 0 m (fun i Fn => let* x := rd pswf [Fn_offset + i * xM_step] in wr Fn [i] x) (mk_nd [m] (fun _ => 0%R)) in
    let* Fb := for_ 1 yN (fun i Fb => let* x := rd Fb [i] in wr Fb [i] (1 / x)%R) pswf in
    Some (SUCCESS, Some (mk_sw image yN xM Fb Fn)).

(** mod_p 157-170 *)
Definition mod_p (a b : Z) : Z := let a := cmod a b in if a >=? 0 then a else a + b.

(** pocketfft::c2c over axis 1 *)
Definition c2c_rows (backward : bool) (scale : R) (a : nd C) : nd C :=
  mk_nd (shape a) (fun idx => match idx with
    | [i0; k] => Cmul (RtoC scale) (DFT backward (dim a 1) (fun s => elem a [i0; s]) k)
    | _ => elem a idx end).
(** pocketfft::c2c over axes 0 and 1 *)
Definition c2c_both (backward : bool) (scale : R) (a : nd C) : nd C :=
  mk_nd (shape a) (fun idx => match idx with
    | [k; l] => Cmul (RtoC scale) (DFT2 backward (dim a 0) (dim a 1) (fun s t => elem a [s; t]) k l)
    | _ => elem a idx end).

Definition is2d {A} (a : nd A) : bool := (length (shape a) =? 2)%nat.

(** sdp_swiftly_prepare_facet 173-267 *)
Definition prepare_facet (sw : swiftly) (fct out : nd C) (facet_offset : Z) : option (error * nd C) :=
  let yN := yN_size sw in
  if negb (is2d fct) || negb (is2d out) || (dim fct 1 >? yN) || negb (dim out 1 =? yN) || negb (dim fct 0 =? dim out 0)
  then Some (ERR_INVALID_ARGUMENT, out) else
  let size := dim fct 1 in
  let Fb := tab_Fb sw in
  let start := mod_p (facet_offset - cdiv size 2) yN in
  let end_ := cmod (start + size) yN in
  let Fb_off := cdiv yN 2 - cdiv size 2 - start in
  let bc0 := dim out 0 in
  let put i0 i x f st := let* x := rd fct [i0; x] in let* f := rd Fb [f] in wr st [i0; i] (Cmul x (RtoC f)) in
  let* out := for_ 0 bc0 (fun i0 st =>
    if start <? end_ then
      let* st := for_ 0 start (fun i st => wr st [i0; i] C0) st in
      let* st := for_ start end_ (fun i st => put i0 i (i - start) (i + Fb_off) st) st in
      for_ end_ yN (fun i st => wr st [i0; i] C0) st
    else
      let* st := for_ 0 end_ (fun i st => put i0 i (i + yN - start) (i + yN + Fb_off) st) st in
      let* st := for_ end_ start (fun i st => wr st [i0; i] C0) st in
      for_ start yN (fun i st => put i0 i (i - start) (i + Fb_off) st) st) out in
  Some (SUCCESS, c2c_rows true (1 / IZR yN)%R out).

(** the offsets of sdp_swiftly_extract_from_facet 296-300 and sdp_swiftly_add_to_facet 1043-1047:
    (aliased_sg_offs, offs1, offs2) *)
Definition facet_offsets (sw : swiftly) (subgrid_offset : Z) : Z * Z * Z :=
  let m := xM_yN sw in
  let sg_offs := cdiv subgrid_offset (cdiv (image_size sw) (yN_size sw)) in
  let aliased := mod_p (sg_offs - cdiv m 2) m in
  let offs := sg_offs - aliased - cdiv m 2 in
  (aliased, mod_p (offs + m) (yN_size sw), mod_p offs (yN_size sw)).

(** sdp_swiftly_extract_from_facet 270-343 *)
Definition extract_from_facet (sw : swiftly) (fct out : nd C) (subgrid_offset : Z) : option (error * nd C) :=
  let yN := yN_size sw in
  let m := xM_yN sw in
  if negb (is2d fct) || negb (is2d out) || negb (dim fct 1 =? yN) || negb (dim out 1 =? m) || negb (dim fct 0 =? dim out 0)
  then Some (ERR_INVALID_ARGUMENT, out) else
  let '(aliased, offs1, offs2) := facet_offsets sw subgrid_offset in
  let bc0 := dim out 0 in
  let copy i0 i p st := let* x := rd fct [i0; p] in wr st [i0; i] x in
  let* out := for_ 0 bc0 (fun i0 st =>
    let stop1 := Z.min (yN - offs1) aliased in
    let* st := for_ 0 stop1 (fun i st => copy i0 i (i + offs1) st) st in
    let* st := for_ (Z.max 0 stop1) aliased (fun i st => copy i0 i (i + offs1 - yN) st) st in
    let i := Z.max (Z.max 0 stop1) aliased in
    let stop2 := Z.min (yN - offs2) m in
    let* st := for_ i stop2 (fun i st => copy i0 i (i + offs2) st) st in
    for_ (Z.max i stop2) m (fun i st => copy i0 i (i + offs2 - yN) st) st) out in
  Some (SUCCESS, c2c_rows false 1%R out).

(** sdp_swiftly_add_to_facet 1017-1076 *)
Definition add_to_facet (sw : swiftly) (contrib fct : nd C) (subgrid_offset : Z) : option (error * nd C) :=
  let yN := yN_size sw in
  let m := xM_yN sw in
  if negb (is2d contrib) || negb (is2d fct) || negb (dim contrib 1 =? m) || negb (dim fct 1 =? yN) || negb (dim contrib 0 =? dim fct 0)
  then Some (ERR_INVALID_ARGUMENT, fct) else
  let '(aliased, offs1, offs2) := facet_offsets sw subgrid_offset in
  let bc0 := dim contrib 0 in
  let add i0 i p st := let* x := rd contrib [i0; i] in let* y := rd st [i0; p] in wr st [i0; p] (Cadd y x) in
  let* fct := for_ 0 bc0 (fun i0 st =>
    let stop1 := Z.min (yN - offs1) aliased in
    let* st := for_ 0 stop1 (fun i st => add i0 i (i + offs1) st) st in
    let* st := for_ (Z.max 0 stop1) aliased (fun i st => add i0 i (i + offs1 - yN) st) st in
    let i := Z.max (Z.max 0 stop1) aliased in
    let stop2 := Z.min (yN - offs2) m in
    let* st := for_ i stop2 (fun i st => add i0 i (i + offs2) st) st in
    for_ (Z.max i stop2) m (fun i st => add i0 i (i + offs2 - yN) st) st) fct in
  Some (SUCCESS, fct).

(** sdp_swiftly_add_to_subgrid 346-396 *)
Definition add_to_subgrid (sw : swiftly) (contrib out : nd C) (facet_offset : Z) : option (error * nd C) :=
  let xM := xM_size sw in
  let m := xM_yN sw in
  let image := image_size sw in
  if negb (is2d contrib) || negb (is2d out) || negb (dim contrib 1 =? m) || negb (dim out 1 =? xM) || negb (dim contrib 0 =? dim out 0)
  then Some (ERR_INVALID_ARGUMENT, out) else
  let Fn := tab_Fn sw in
  let fct_offs := cdiv (mod_p facet_offset image) (cdiv image xM) in
  let offs := mod_p (cdiv (- m) 2 + cdiv xM 2 + fct_offs) xM in
  let bc0 := dim out 0 in
  let add i0 i p st := let* f := rd Fn [i] in let* x := rd contrib [i0; cmod (i + fct_offs + cdiv m 2) m] in
    let* y := rd st [i0; p] in wr st [i0; p] (Cadd y (Cmul (RtoC f) x)) in
  let* out := for_ 0 bc0 (fun i0 st =>
    let stop1 := Z.min (xM - offs) m in
    let* st := for_ 0 stop1 (fun i st => add i0 i (i + offs) st) st in
    for_ (Z.max 0 stop1) m (fun i st => add i0 i (i + offs - xM) st) st) out in
  Some (SUCCESS, out).

(** sdp_swiftly_extract_from_subgrid 848-910 *)
Definition extract_from_subgrid (sw : swiftly) (sg_img contrib : nd C) (facet_offset : Z) : option (error * nd C) :=
  let xM := xM_size sw in
  let m := xM_yN sw in
  let image := image_size sw in
  if negb (is2d sg_img) || negb (is2d contrib) || negb (dim sg_img 1 =? xM) || negb (dim contrib 1 =? m) || negb (dim sg_img 0 =? dim contrib 0)
  then Some (ERR_INVALID_ARGUMENT, contrib) else
  let Fn := tab_Fn sw in
  let bc0 := dim sg_img 0 in
  let fct_offs := cdiv facet_offset (cdiv image xM) in
  let offs := mod_p (cdiv (- m) 2 + cdiv xM 2 + fct_offs) xM in
  let put i0 i p st := let* x := rd sg_img [i0; p] in let* f := rd Fn [i] in
    wr st [i0; cmod (i + fct_offs + cdiv m 2) m] (Cmul x (RtoC f)) in
  let* contrib := for_ 0 bc0 (fun i0 st =>
    let stop1 := Z.min (xM - offs) m in
    let* st := for_ 0 stop1 (fun i st => put i0 i (i + offs) st) st in
    for_ (Z.max 0 stop1) m (fun i st => put i0 i (i + offs - xM) st) st) contrib in
  Some (SUCCESS, c2c_rows true (1 / IZR m)%R contrib).

(** sdp_swiftly_finish_facet 1079-1157: returns (prep_facet_inout, facet_out) *)
Definition finish_facet (sw : swiftly) (pfct fct : nd C) (facet_offset : Z) : option (error * (nd C * nd C)) :=
  let yN := yN_size sw in
  if negb (is2d pfct) || negb (is2d fct) || (dim fct 1 >? yN) || negb (dim pfct 1 =? yN) || negb (dim fct 0 =? dim pfct 0)
  then Some (ERR_INVALID_ARGUMENT, (pfct, fct)) else
  let size := dim fct 1 in
  let Fb := tab_Fb sw in
  let bc0 := dim pfct 0 in
  let pfct := c2c_rows false 1%R pfct in
  let start := mod_p (facet_offset - cdiv size 2) yN in
  let end_ := cmod (start + size) yN in
  let Fb_off := cdiv yN 2 - cdiv size 2 - start in
  let put i0 i x f st := let* p := rd pfct [i0; i] in let* f := rd Fb [f] in wr st [i0; x] (Cmul p (RtoC f)) in
  let* fct := for_ 0 bc0 (fun i0 st =>
    if start <? end_ then for_ start end_ (fun i st => put i0 i (i - start) (i + Fb_off) st) st
    else
      let* st := for_ 0 end_ (fun i st => put i0 i (i + yN - start) (i + yN + Fb_off) st) st in
      for_ start yN (fun i st => put i0 i (i - start) (i + Fb_off) st) st) fct in
  Some (SUCCESS, (pfct, fct)).

(** sdp_swiftly_finish_subgrid_inplace 481-545.  The temporary array gets the transform; the FFT-shifted
    input stays in the array until the last loop overwrites it. *)
Definition finish_subgrid_inplace (sw : swiftly) (sg : nd C) (subgrid_offset : Z) : option (error * nd C) :=
  let xM := xM_size sw in
  if negb (is2d sg) || negb (dim sg 1 =? xM) then Some (ERR_INVALID_ARGUMENT, sg) else
  let bc0 := dim sg 0 in
  if bc0 * xM =? 0 then Some (SUCCESS, sg) else
  let* sg := for_ 0 bc0 (fun i0 => for_ 0 (cdiv xM 2) (fun i sg =>
    let* tmp := rd sg [i0; i] in
    let* y := rd sg [i0; i + cdiv xM 2] in
    let* sg := wr sg [i0; i] y in
    wr sg [i0; i + cdiv xM 2] tmp)) sg in
  let tmp := c2c_rows true (1 / IZR xM)%R sg in
  let* sg := for_ 0 bc0 (fun i0 => for_ 0 xM (fun i sg =>
    let j := mod_p (i + subgrid_offset + cdiv xM 2) xM in
    let* x := rd tmp [i0; j] in wr sg [i0; i] x)) sg in
  Some (SUCCESS, sg).

(** sdp_swiftly_finish_subgrid 548-624 *)
Definition finish_subgrid (sw : swiftly) (sg_img sg : nd C) (subgrid_offset : Z) : option (error * nd C) :=
  let xM := xM_size sw in
  if negb (is2d sg_img) || negb (is2d sg) || negb (dim sg_img 1 =? xM) || (dim sg 1 >? xM) || negb (dim sg_img 0 =? dim sg 0)
  then Some (ERR_INVALID_ARGUMENT, sg) else
  let bc0 := dim sg 0 in
  let* buf := for_ 0 bc0 (fun i0 => for_ 0 (cdiv xM 2) (fun i buf =>
    let* x := rd sg_img [i0; i + cdiv xM 2] in
    let* buf := wr buf [i0; i] x in
    let* y := rd sg_img [i0; i] in
    wr buf [i0; i + cdiv xM 2] y)) (mk_nd (shape sg_img) (fun _ => C0)) in
  let buf := c2c_rows true (1 / IZR xM)%R buf in
  let xA := dim sg 1 in
  let* sg := for_ 0 bc0 (fun i0 => for_ 0 xA (fun i sg =>
    let j := mod_p (i - cdiv xA 2 + subgrid_offset + xM) xM in
    let* x := rd buf [i0; j] in wr sg [i0; i] x)) sg in
  Some (SUCCESS, sg).

(** sdp_swiftly_prepare_subgrid_inplace 727-776 *)
Definition prepare_subgrid_inplace (sw : swiftly) (sg : nd C) (subgrid_offset : Z) : option (error * nd C) :=
  let xM := xM_size sw in
  if negb (is2d sg) || negb (dim sg 1 =? xM) then Some (ERR_INVALID_ARGUMENT, sg) else
  let bc0 := dim sg 0 in
  let sg := c2c_rows false 1%R sg in
  let phase_step := (-2 * PI * IZR (subgrid_offset + cdiv xM 2) / IZR xM)%R in
  let phase_step2 := (- PI * IZR (subgrid_offset + cdiv xM 2))%R in
  let step := cis phase_step in
  let step2 := cis phase_step2 in
  let* (_, sg) := for_ 0 (cdiv xM 2) (fun i s =>
    let '(phasor, sg) := s in
    let* sg := for_ 0 bc0 (fun i0 sg =>
      let* tmp := rd sg [i0; i] in
      let* y := rd sg [i0; i + cdiv xM 2] in
      let* sg := wr sg [i0; i] (Cmul phasor y) in
      wr sg [i0; i + cdiv xM 2] (Cmul (Cmul phasor step2) tmp)) sg in
    Some (Cmul phasor step, sg)) (C1, sg) in
  Some (SUCCESS, sg).

(** sdp_swiftly_add_to_subgrid_2d 399-478: dimension 0 of the arrays is not checked *)
Definition add_to_subgrid_2d (sw : swiftly) (contrib out : nd C) (facet_offset0 facet_offset1 : Z) : option (error * nd C) :=
  let xM := xM_size sw in
  let m := xM_yN sw in
  let image := image_size sw in
  if negb (is2d contrib) || negb (is2d out) || negb (dim contrib 1 =? m) || negb (dim out 1 =? xM)
  then Some (ERR_INVALID_ARGUMENT, out) else
  let Fn := tab_Fn sw in
  let fct_offs0 := cdiv facet_offset0 (cdiv image xM) in
  let offs0 := mod_p (cdiv (- m) 2 + cdiv xM 2 + fct_offs0) xM in
  let fct_offs1 := cdiv facet_offset1 (cdiv image xM) in
  let offs1 := mod_p (cdiv (- m) 2 + cdiv xM 2 + fct_offs1) xM in
  let stop0 := Z.min (xM - offs0) m in
  let stop1 := Z.min (xM - offs1) m in
  let add i0 i1 p0 p1 (fn0 : R) st :=
    let* fn1 := rd Fn [i1] in
    let* x := rd contrib [cmod (i0 + fct_offs0 + cdiv m 2) m; cmod (i1 + fct_offs1 + cdiv m 2) m] in
    let* y := rd st [p0; p1] in wr st [p0; p1] (Cadd y (Cmul (RtoC (fn0 * fn1)%R) x)) in
  let line i0 p0 st :=
    let* fn0 := rd Fn [i0] in
    let* st := for_ 0 stop1 (fun i1 st => add i0 i1 p0 (i1 + offs1) fn0 st) st in
    for_ (Z.max 0 stop1) m (fun i1 st => add i0 i1 p0 (i1 + offs1 - xM) fn0 st) st in
  let* out := for_ 0 stop0 (fun i0 st => line i0 (i0 + offs0) st) out in
  let* out := for_ (Z.max 0 stop0) m (fun i0 st => line i0 (i0 + offs0 - xM) st) out in
  Some (SUCCESS, out).

(** sdp_swiftly_extract_from_subgrid_2d 916-1011 *)
Definition extract_from_subgrid_2d (sw : swiftly) (sg_img contrib : nd C) (facet_offset0 facet_offset1 : Z) : option (error * nd C) :=
  let xM := xM_size sw in
  let m := xM_yN sw in
  let image := image_size sw in
  if negb (is2d sg_img) || negb (is2d contrib) || negb (dim sg_img 1 =? xM) || negb (dim contrib 1 =? m)
  then Some (ERR_INVALID_ARGUMENT, contrib) else
  let Fn := tab_Fn sw in
  let fct_offs0 := cdiv facet_offset0 (cdiv image xM) in
  let offs0 := mod_p (cdiv (- m) 2 + cdiv xM 2 + fct_offs0) xM in
  let fct_offs1 := cdiv facet_offset1 (cdiv image xM) in
  let offs1 := mod_p (cdiv (- m) 2 + cdiv xM 2 + fct_offs1) xM in
  let stop0 := Z.min (xM - offs0) m in
  let stop1 := Z.min (xM - offs1) m in
  let put i0 i1 p0 p1 (fn0 : R) st :=
    let* fn1 := rd Fn [i1] in
    let* x := rd sg_img [p0; p1] in
    wr st [cmod (i0 + fct_offs0 + cdiv m 2) m; cmod (i1 + fct_offs1 + cdiv m 2) m] (Cmul (RtoC (fn0 * fn1)%R) x) in
  let line i0 p0 st :=
    let* fn0 := rd Fn [i0] in
    let* st := for_ 0 stop1 (fun i1 st => put i0 i1 p0 (i1 + offs1) fn0 st) st in
    for_ (Z.max 0 stop1) m (fun i1 st => put i0 i1 p0 (i1 + offs1 - xM) fn0 st) st in
  let* contrib := for_ 0 stop0 (fun i0 st => line i0 (i0 + offs0) st) contrib in
  let* contrib := for_ (Z.max 0 stop0) m (fun i0 st => line i0 (i0 + offs0 - xM) st) contrib in
  Some (SUCCESS, c2c_both true (1 / IZR m / IZR m)%R contrib).

(** sdp_swiftly_finish_subgrid_inplace_2d 627-721.  [stride0], [stride1] are the strides of the array in
    elements.  Line 702 passes them (not stride_tmp) for the contiguous temporary array as well, so the
    transform of (k, l) is written at element k stride0 + l stride1 of that array.  Three cases: a
    row-major array (right place), a column-major one (transposed place), any other arrangement without
    overlaps (outside the temporary array: None). *)
Definition finish_subgrid_inplace_2d (sw : swiftly) (sg : nd C) (stride0 stride1 : Z) (subgrid_offset0 subgrid_offset1 : Z) : option (error * nd C) :=
  let xM := xM_size sw in
  if negb (is2d sg) || negb (dim sg 0 =? xM) || negb (dim sg 1 =? xM) then Some (ERR_INVALID_ARGUMENT, sg) else
  let h := cdiv xM 2 in
  let* sg := for_ 0 h (fun i0 sg => for_ 0 h (fun i1 sg =>
    let* tmp := rd sg [i0; i1] in
    let* y := rd sg [i0 + h; i1 + h] in
    let* sg := wr sg [i0; i1] y in
    let* sg := wr sg [i0 + h; i1 + h] tmp in
    let* tmp2 := rd sg [i0 + h; i1] in
    let* y := rd sg [i0; i1 + h] in
    let* sg := wr sg [i0 + h; i1] y in
    wr sg [i0; i1 + h] tmp2) sg) sg in
  let out := c2c_both true (1 / IZR xM / IZR xM)%R sg in
  let* tmp := if (stride0 =? xM) && (stride1 =? 1) then Some out
              else if (stride0 =? 1) && (stride1 =? xM) then Some (mk_nd [xM; xM] (fun idx => match idx with [i; j] => elem out [j; i] | _ => elem out idx end))
              else None in
  let off := mod_p (subgrid_offset1 + h) xM in
  let* sg := for_ 0 xM (fun i0 sg =>
    let j0 := mod_p (i0 + subgrid_offset0 + h) xM in
    let* sg := for_ 0 (xM - off) (fun i1 sg => let* x := rd tmp [j0; i1 + off] in wr sg [i0; i1] x) sg in
    for_ (Z.max 0 (xM - off)) xM (fun i1 sg => let* x := rd tmp [j0; i1 + off - xM] in wr sg [i0; i1] x) sg) sg in
  Some (SUCCESS, sg).

(** sdp_swiftly_prepare_subgrid_inplace_2d 779-845 *)
Definition prepare_subgrid_inplace_2d (sw : swiftly) (sg : nd C) (subgrid_offset0 subgrid_offset1 : Z) : option (error * nd C) :=
  let xM := xM_size sw in
  if negb (is2d sg) || negb (dim sg 0 =? xM) || negb (dim sg 1 =? xM) then Some (ERR_INVALID_ARGUMENT, sg) else
  let h := cdiv xM 2 in
  let sg := c2c_both false 1%R sg in
  let step0 := cis (-2 * PI * IZR (subgrid_offset0 + h) / IZR xM)%R in
  let step0_2 := cis (- PI * IZR (subgrid_offset0 + h))%R in
  let step1 := cis (-2 * PI * IZR (subgrid_offset1 + h) / IZR xM)%R in
  let step1_2 := cis (- PI * IZR (subgrid_offset1 + h))%R in
  let* (_, sg) := for_ 0 h (fun i0 s =>
    let '(phasor0, sg) := s in
    let* (_, sg) := for_ 0 h (fun i1 s =>
      let '(phasor1, sg) := s in
      let* sg := (let* tmp := rd sg [i0; i1] in
        let* y := rd sg [i0 + h; i1 + h] in
        let* sg := wr sg [i0; i1] (Cmul phasor1 y) in
        let* sg := wr sg [i0 + h; i1 + h] (Cmul (Cmul (Cmul phasor1 step0_2) step1_2) tmp) in
        let* tmp2 := rd sg [i0 + h; i1] in
        let* y := rd sg [i0; i1 + h] in
        let* sg := wr sg [i0 + h; i1] (Cmul (Cmul phasor1 step0_2) y) in
        wr sg [i0; i1 + h] (Cmul (Cmul phasor1 step1_2) tmp2)) in
      Some (Cmul phasor1 step1, sg)) (phasor0, sg) in
    Some (Cmul phasor0 step0, sg)) (C1, sg) in
  Some (SUCCESS, sg).
