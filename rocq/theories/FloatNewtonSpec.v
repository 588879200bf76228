(** Words of the statements about the iterative direct localization of an RPC model in binary64 (C103). *)
From Coq Require Import Reals.
From Flocq Require Import Core BinarySingleNaN.
From Verif Require Import RpcModel RpcSpec FloatModel FloatRpcModel FloatRpcSpec PropertiesFloatRpc FloatNewtonModel.
Open Scope R_scope.

(** The model in real numbers and the one in binary64 have the same parameters. *)
Definition same_model (m : rpc) (M : fmodel) : Prop :=
  made_of m (fm_x M) (fm_y M) (fm_alt M) (fm_col M) (fm_row M) (fm_num_col M) (fm_den_col M) (fm_num_row M) (fm_den_row M).
(** An image of at most 10^5 rows and columns. *)
Definition image_model (M : fmodel) : Prop := image_axis (fm_col M) /\ image_axis (fm_row M).
(** A valid longitude and latitude in the domain of an ordinary model (see C88). *)
Definition in_domain (M : fmodel) (lon lat alt : b64) : Prop :=
  Rabs (B2R lon) <= 180 /\ Rabs (B2R lat) <= 90 /\
  ordinary (fm_x M) (fm_y M) (fm_alt M) (fm_row M) (fm_num_row M) (fm_den_row M) lon lat alt /\
  ordinary (fm_x M) (fm_y M) (fm_alt M) (fm_col M) (fm_num_col M) (fm_den_col M) lon lat alt.
(** The exact model sees the ground position within 1.02 10^-6 pixel of the row and the column. *)
Definition seen_at (m : rpc) (row col lon lat alt : b64) : Prop :=
  Rabs (B2R row - row_of m (B2R lon) (B2R lat) (B2R alt)) <= 102 / 100000000 /\
  Rabs (B2R col - col_of m (B2R lon) (B2R lat) (B2R alt)) <= 102 / 100000000.
(** A pixel with a finite row and column. *)
Definition finite_pixel (p : fpixel) : Prop := is_finite (fp_row p) = true /\ is_finite (fp_col p) = true.
