(** Building the arrays of an ArrayHopper from a list of intervals. *)
From Verif Require Import Base HopperModel.

(** The arrays of a list of intervals: starts, ends and values (gcl.cc:355-363,
    materialize.cc:22-32, array_hopper.cc:189-220; with [withv = false] there is no
    value array and ArrayHopper answers 0). *)
Definition arr_of (l : list iv) (withv : bool) : arr :=
  Arr (map ip l) (map iq l) (if withv then Some (map ivl l) else None).

