(** Fetching the data of a [CoordinateSystemManager]
    (weldx/transformations/cs_manager.py 577-630, 974-1022), on top of CsmModel.v. *)
From Coq Require Import List String Bool.
From Verif Require Import Base CsmModel.
Import ListNotations.
Open Scope string_scope.

Section Data.
  Context {T D : Type} `{LcsOps T}.

  (** [get_data], 974-1006; [transform] is [self.transform_data] *)
  Definition get_data (transform : D -> string -> string -> res D)
             (c : csm T D) (k : string) (target : option string) : res D :=
    bind (find_data c k) (fun nv =>
      match target with
      | None => Ok (snd nv)
      | Some t => if String.eqb t (fst nv) then Ok (snd nv)
                  else transform (snd nv) (fst nv) t
      end).

  (** [get_data_system_name], 1008-1022 *)
  Definition get_data_system_name (c : csm T D) (k : string) : res string :=
    bind (find_data c k) (fun nv => Ok (fst nv)).

  (** [assign_data], 577-630, with the check of the name (612-613); a name that is
      no string is [None] *)
  Definition assign_any (transform : D -> string -> string -> res D)
             (c : csm T D) (v : D) (k : option string) (ref : string)
             (target : option string) : csm T D * res unit :=
    match k with
    | None => (c, Err TypeError)
    | Some k => assign_data transform c v k ref target
    end.
End Data.
