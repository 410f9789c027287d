(** Common definitions for the model of ska-sdp-func: error codes, C integer
    operations, the undefined-behaviour monad, bounded loops and N-d arrays. *)
From Coq Require Export ZArith List Bool Lia.
From Coq Require Export ZifyBool ZifyNat.
Export ListNotations.
Open Scope Z_scope.
#[global] Arguments Z.mul : simpl never.
#[global] Arguments Z.add : simpl never.
#[global] Arguments Z.sub : simpl never.
#[global] Arguments Z.of_nat : simpl never.

(** ** Error codes: utility/sdp_errors.h lines 14-39 *)
Inductive error :=
| SUCCESS | ERR_RUNTIME | ERR_INVALID_ARGUMENT | ERR_DATA_TYPE
| ERR_MEM_ALLOC_FAILURE | ERR_MEM_COPY_FAILURE | ERR_MEM_LOCATION.

(** `if ( *status )` in C: true for every code but SDP_SUCCESS (= 0). *)
Definition failed (s : error) : bool :=
  match s with SUCCESS => false | _ => true end.

(** ** C integer division and remainder truncate towards zero. *)
Definition cdiv (a b : Z) : Z := Z.quot a b.
Definition cmod (a b : Z) : Z := Z.rem a b.

(** ** Undefined behaviour is the outcome [None] of an option computation. *)
Definition bind {A B} (x : option A) (f : A -> option B) : option B :=
  match x with Some a => f a | None => None end.
Notation "'let*' x ':=' e 'in' k" := (bind e (fun x => k))
  (at level 61, x pattern, e at next level, right associativity).

(** ** Bounded loops: for (i = lo; i < hi; ++i) s = f(i, s); *)
Fixpoint for_nat {S} (k : nat) (i : Z) (f : Z -> S -> option S) (s : S) : option S :=
  match k with
  | O => Some s
  | Datatypes.S k' => match f i s with
                      | Some s' => for_nat k' (i + 1) f s'
                      | None => None
                      end
  end.

Definition for_ {S} (lo hi : Z) (f : Z -> S -> option S) (s : S) : option S :=
  for_nat (Z.to_nat (hi - lo)) lo f s.

(** ** N-dimensional arrays: shape and index function.  An access outside the
    shape is undefined behaviour. *)
Record nd (A : Type) := mk_nd { shape : list Z; elem : list Z -> A }.
Arguments mk_nd {A}. Arguments shape {A}. Arguments elem {A}.

Fixpoint in_shape (sh idx : list Z) : bool :=
  match sh, idx with
  | [], [] => true
  | s :: sh', i :: idx' => (0 <=? i) && (i <? s) && in_shape sh' idx'
  | _, _ => false
  end.

Fixpoint idx_eqb (a b : list Z) : bool :=
  match a, b with
  | [], [] => true
  | x :: a', y :: b' => (x =? y) && idx_eqb a' b'
  | _, _ => false
  end.

Definition rd {A} (a : nd A) (idx : list Z) : option A :=
  if in_shape (shape a) idx then Some (elem a idx) else None.

Definition upd {A} (a : nd A) (idx : list Z) (v : A) : nd A :=
  mk_nd (shape a) (fun j => if idx_eqb idx j then v else elem a j).

Definition wr {A} (a : nd A) (idx : list Z) (v : A) : option (nd A) :=
  if in_shape (shape a) idx then Some (upd a idx v) else None.

(** Size of dimension [k] (0 when out of range, as sdp_mem_shape_dim does). *)
Definition dim {A} (a : nd A) (k : nat) : Z := nth k (shape a) 0.

(** Two arrays agree: same shape and the same element at every in-range index. *)
Definition nd_eq {A} (a b : nd A) : Prop :=
  shape a = shape b /\
  forall idx, in_shape (shape a) idx = true -> elem a idx = elem b idx.

(** [lo; lo+1; ..; hi-1] *)
Definition zrange (lo hi : Z) : list Z :=
  map (fun k => lo + Z.of_nat k) (seq 0 (Z.to_nat (hi - lo))).
