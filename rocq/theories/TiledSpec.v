(** Specification vocabulary for tiling and bucket sort. *)
From Verif Require Import Base Sum QNum Tiled.
Open Scope Z_scope.

(** Tile [p] (of width [ts], tile 0 starting at grid position [tl]) overlaps the kernel
    [g - s, g + s]. *)
Definition overlaps (ts tl s g p : Z) : Prop := exists x, g - s <= x <= g + s /\ tl + p * ts <= x < tl + (p + 1) * ts.

(** The visibilities in processing order: index, position in the grid (u, v). *)
Definition visibilities (P : tparams) (nt nb nc : Z) (uvw freqs : nd Q) : list (Z * Q * Q) :=
  flat_map (fun t => flat_map (fun b => map (fun c =>
    (nc * (nb * t + b) + c, position P (elem uvw [t; b; 0]) (elem freqs [c]), position P (elem uvw [t; b; 1]) (elem freqs [c])))
    (zrange 0 nc)) (zrange 0 nb)) (zrange 0 nt).

Definition fits (P : tparams) (v : Z * Q * Q) : bool :=
  let '(_, pu, pv) := v in inside P (grid_pos P pu) (grid_pos P pv).

(** The tiles (pu, pv) to which a visibility is assigned. *)
Definition tiles_of (P : tparams) (v : Z * Q * Q) : list (Z * Z) :=
  let '(_, pu, pv) := v in
  if fits P v then
    let '(u0, u1, v0, v1) := tile_ranges P (grid_pos P pu) (grid_pos P pv) in
    flat_map (fun y => map (fun x => (x, y)) (zrange u0 u1)) (zrange v0 v1)
  else [].

(** All (tile number, entry) pairs, in processing order; [mk] makes the entry of a visibility in
    tile (pu, pv). *)
Definition hits {E} (P : tparams) (mk : Z * Q * Q -> Z * Z -> E) (vs : list (Z * Q * Q)) : list (Z * E) :=
  flat_map (fun v => map (fun t => (fst t + snd t * num_tiles_u P, mk v t)) (tiles_of P v)) vs.

(** Every visibility is assigned only to tiles that exist. *)
Definition tiles_ok (P : tparams) (vs : list (Z * Q * Q)) : Prop :=
  forall v t, In v vs -> In t (tiles_of P v) -> 0 <= fst t < num_tiles1 P (tile_u P) /\ 0 <= snd t < num_tiles1 P (tile_v P).

(** The entries of tile [t] in a list of (tile, entry) pairs. *)
Definition entries {E} (t : Z) (l : list (Z * E)) : list E := map snd (filter (fun h => fst h =? t) l).
Definition slice {A} (a : nd A) (lo hi : Z) : list A := map (fun k => elem a [k]) (zrange lo hi).
(** Number of entries of tile [t], and of all tiles before it. *)
Definition cnt {E} (t : Z) (l : list (Z * E)) : Z := Z.of_nat (length (entries t l)).
Definition start {E} (t : Z) (l : list (Z * E)) : Z := sum Z.add 0 0 t (fun j => cnt j l).

(** Entries: (visibility index, tile code) and (u, v, visibility, weight, tile code). *)
Definition index_entry (v : Z * Q * Q) (t : Z * Z) : Z * Z := (fst (fst v), snd t * 32768 + fst t).
Definition sort_entry {V W} (vis : nd V) (weight : nd W) (v : Z * Q * Q) (t : Z * Z) : Q * Q * V * W * Z :=
  (snd (fst v), snd v, elem vis [fst (fst v)], elem weight [fst (fst v)], snd t * 32768 + fst t).
