(** What is documented about adaptive histogram equalization. *)
From Coq Require Import List ZArith.
Import ListNotations.

(** The shape of contextual regions, as rows and columns: "default is 1/4 of image height and 1/4 of image width". *)
Record region := Region { region_height : Z; region_width : Z }.
Definition documented_default (nrows ncols : nat) : region := Region (Z.of_nat nrows / 4) (Z.of_nat ncols / 4).
(** What a list of sizes given to scikit-image means: size along the first axis (rows), then along the second. *)
Definition region_of (l : list Z) : option region := match l with [h; w] => Some (Region h w) | _ => None end.
