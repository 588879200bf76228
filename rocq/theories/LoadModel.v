(** Model of the construction of an RPC object: [RPC.__init__] and [RPC.load] of [shareloc/geomodels/rpc.py]. *)
From Coq Require Import Reals ZArith List Bool String.
From Verif Require Import Num PyStrModel ReadersModel RpcModel.
Import ListNotations.

(** rpc.py 158-165 and 168-175: a list of coefficients is used if it is given and not empty; [np.array] of it. *)
Definition coefficients (l : option (list num)) : option (list R) :=
  match l with Some l => seq_opt l | None => Some [] end.
Definition given {A} (l : list A) : bool := match l with [] => false | _ => true end.

(** rpc.py 53-180 [__init__], on the dictionary of a reader (no reader gives an epsg: it becomes 4326).
    Simplification: [None] when a parameter is NaN (the code keeps it). *)
Definition rpc_of_params (p : rpc_params) : option rpc :=
  match p_off_row p, p_off_col p, p_scale_row p, p_scale_col p, p_off_x p, p_scale_x p, p_off_y p, p_scale_y p,
        p_off_alt p, p_scale_alt p with
  | Some orow, Some ocol, Some srow, Some scol, Some ox, Some sx, Some oy, Some sy, Some oalt, Some salt =>
      match seq_opt (p_num_col p), seq_opt (p_den_col p), seq_opt (p_num_row p), seq_opt (p_den_row p),
            coefficients (p_num_x p), coefficients (p_den_x p), coefficients (p_num_y p), coefficients (p_den_y p) with
      | Some nc, Some dc, Some nr, Some dr, Some nx, Some dx, Some ny, Some dy =>
          Some (mkRpc nc dc nr dr nx dx ny dy (given nc) (given nx) ox sx oy sy oalt salt ocol scol orow srow 4326)
      | _, _, _, _, _, _, _, _ => None
      end
  | _, _, _, _, _, _, _, _, _, _ => None
  end.

(** rpc.py 182-196 [load], with the convention as an argument (the code always passes True).  [None]: an
    exception of the reader. *)
Definition load_rpc (pyfloat : string -> option num) (path : string) (f : file_view) (topleft : bool) : option rpc :=
  match rpc_reader pyfloat path f topleft with
  | Ok p => rpc_of_params p
  | Err _ => None
  end.
