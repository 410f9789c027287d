(** Specification vocabulary for tiling in GPU memory; see TiledSpec.v *)
From Verif Require Import Base QNum Tiled TiledSpec TiledGpu.
Open Scope Z_scope.

(** Tile (x, y) is a tile that the visibility [v] belongs to: the kernel around its pixel is inside of the grid and overlaps the tile. *)
Definition belongs (P : tparams) (v : Z * Q * Q) (t : Z * Z) : Prop :=
  let '(_, pu, pv) := v in
  fits P v = true /\ overlaps (tile_u P) (top_left P (tile_u P)) (support P) (grid_pos P pu) (fst t) /\ overlaps (tile_v P) (top_left P (tile_v P)) (support P) (grid_pos P pv) (snd t).
(** [ts v] lists the tiles that [v] belongs to, each once *)
Definition lists_tiles (P : tparams) (ts : Z * Q * Q -> list (Z * Z)) : Prop := forall v, NoDup (ts v) /\ forall t, In t (ts v) <-> belongs P v t.
(** All (tile number, entry) pairs, for the tiles [ts] *)
Definition pairs {E} (P : tparams) (ts : Z * Q * Q -> list (Z * Z)) (mk : Z * Q * Q -> Z * Z -> E) (vs : list (Z * Q * Q)) : list (Z * E) :=
  flat_map (fun v => map (fun t => (fst t + snd t * num_tiles_u P, mk v t)) (ts v)) vs.
(** Every visibility belongs only to tiles that exist. *)
Definition tiles_there (P : tparams) (vs : list (Z * Q * Q)) : Prop :=
  forall v t, In v vs -> belongs P v t -> 0 <= fst t < num_tiles1 P (tile_u P) /\ 0 <= snd t < num_tiles1 P (tile_v P).
(** Sizes for which there is a grid of threads *)
Definition grid_fits (nb nc nt : Z) : Prop := 1 <= nb <= 2147483647 /\ 1 <= nc <= 131070 /\ 1 <= nt <= 131070.
