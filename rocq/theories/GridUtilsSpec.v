(** Specification vocabulary for the gridder utilities. *)
From Verif Require Import Base Sum CRing Cplx GridUtils.
Open Scope Z_scope.

(** Number of turns (phase / 2 pi) of source [s] for baseline row [i] and channel [c]. *)
Definition source_turns (uvw lmn : nd R) (freq0 dfreq : R) (off : R * R * R) (i c s : Z) : R :=
  let f := ((freq0 + dfreq * IZR c) / 299792458)%R in
  (elem lmn [s; 0%Z] * (elem uvw [i; 0%Z] * f - fst (fst off)) +
   elem lmn [s; 1%Z] * (elem uvw [i; 1%Z] * f - snd (fst off)) +
   elem lmn [s; 2%Z] * (elem uvw [i; 2%Z] * f - snd off))%R.

(** Rows with no channels selected are not processed. *)
Definition row_on (chs : option (nd Z * nd Z)) (i : Z) : bool :=
  match chs with None => true | Some (s, e) => elem s [i] <? elem e [i] end.
Definition chs_shape (chs : option (nd Z * nd Z)) (n : Z) : Prop :=
  match chs with None => True | Some (s, e) => shape s = [n] /\ shape e = [n] end.

Notation Csum := (sum Cadd C0).

(** The prediction for row [i], channel [c]: sum over sources of flux times e^{-2 pi i turns}. *)
Definition predicted (uvw lmn : nd R) (freq0 dfreq : R) (off : R * R * R) (flux : nd C) (ns i c : Z) : C :=
  Csum 0 ns (fun s => Cmul (elem flux [s]) (cis (-2 * PI * source_turns uvw lmn freq0 dfreq off i c s)%R)).
(** The image at source position [s]: sum over processed visibilities of vis times e^{2 pi i turns}. *)
Definition imaged (uvw lmn : nd R) (freq0 dfreq : R) (off : R * R * R) (vis : nd C)
    (chs : option (nd Z * nd Z)) (n nc s : Z) : C :=
  Csum 0 n (fun i => if row_on chs i then
    Csum 0 nc (fun c => Cmul (elem vis [i; c]) (cis (2 * PI * source_turns uvw lmn freq0 dfreq off i c s)%R))
    else C0).

(** Optional separable taper. *)
Definition taper_value (taper : option (nd R)) (il im : Z) : R :=
  match taper with None => 1%R | Some t => (elem t [il] * elem t [im])%R end.
Definition taper_shape (taper : option (nd R)) (n : Z) : Prop :=
  match taper with None => True | Some t => shape t = [n] end.
