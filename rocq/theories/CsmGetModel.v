(** [CoordinateSystemManager.get_cs] with time (weldx/transformations/cs_manager.py
    1024-1246, 1660-1707) and [transform_data] (1709-1757).

    Simplifications: times as in LcsTimeModel.v; the request is a [Time], the case
    that a name of a coordinate system is passed as time is not modelled. A [Time]
    without explicit reference time that consists of dates has its first date as
    reference time. *)
From Coq Require Import Reals List String ZArith Bool.
From Verif Require Import Base RigidModel InterpModel LinModel CsmModel LcsTimeModel.
Import ListNotations.
Open Scope Z_scope.

(** the questions of the manager to its systems *)
Definition tlcs_ops (sl : segment mat) : LcsOps tlcs := {|
  l_inv l := match tlcs_invert sl l with Ok i => i | Err _ => l end;
  l_expr := is_expr;
  l_timedep := is_time_dependent;
  l_ref := tl_ref
|}.

(** [Time(time, time_ref)]: a time with dates keeps its moments *)
Definition with_ref (ref : option Z) (t : rtime) : rtime :=
  match r_ref t, ref with
  | Some a, Some b => RT (map (fun x => x + a - b) (r_times t)) (Some b)
  | Some _, None => t
  | None, _ => RT (r_times t) ref
  end.

(** the values of an array with the times [ts]; [lcs.orientation.data] and a new time *)
Definition relabel_times {A : Type} (ts : list Z) (x : arr A) : arr A :=
  match x with Const a => Const a | Ser s => Ser (combine ts (map snd s)) end.

(** the smallest element *)
Fixpoint min_list (l : list Z) : option Z :=
  match l with
  | [] => None
  | x :: r => match min_list r with Some y => Some (Z.min x y) | None => Some x end
  end.

Fixpoint somes {A : Type} (l : list (option A)) : list A :=
  match l with [] => [] | Some a :: r => a :: somes r | None :: r => somes r end.

(** [list(zip(path[:-1], path[1:]))] *)
Fixpoint path_edges (p : list string) : list (string * string) :=
  match p with
  | a :: (b :: _) as r => (a, b) :: path_edges r
  | _ => []
  end.

Section Get.
  Context (sl : segment mat) {D : Type}.
  Notation mgr := (csm tlcs D).
  Notation ops := (tlcs_ops sl).

  (** the first lines of [_get_cs_on_edge], 1032-1038: the system on the edge, or
      the one of the opposite direction that has to be inverted *)
  Definition edge_lcs (c : mgr) (e : string * string) : res (tlcs * bool) :=
    match find_edge (c_edges c) (fst e) (snd e) with
    | None => Err KeyError
    | Some x =>
        match e_tr x with
        | Some l => Ok (l, false)
        | None =>
            match find_edge (c_edges c) (snd e) (fst e) with
            | None => Err KeyError
            | Some y => match e_tr y with Some l => Ok (l, true) | None => Err AttributeError end
            end
        end
    end.

  (** [_get_cs_on_edge], 1024-1061 *)
  Definition cs_on_edge (c : mgr) (e : string * string) (time : option rtime) (tref : option Z)
             (use_lcs_ref : bool) : res tlcs :=
    bind (edge_lcs c e) (fun li =>
    let l := fst li in
    bind (if is_time_dependent l then
            match tl_ref l, c_ref c with
            | None, Some r =>
                match time with
                | None => Err TypeError
                | Some rt =>
                    match r_ref rt with
                    | None => Err TypeError
                    | Some a =>
                        bind (interp_time sl l (Some (RT (map (fun t => t + a - r) (r_times rt)) None)))
                             (fun i =>
                                match tl_pos i with
                                | CArr p => mk_tlcs sl (relabel_times (r_times rt) (tl_ori i))
                                              (CArr (relabel_times (r_times rt) p)) None (r_ref rt)
                                | CExpr _ => Err AttributeError
                                end)
                    end
                end
            | _, _ => interp_time sl l (option_map (with_ref (if use_lcs_ref then tl_ref l else tref)) time)
            end
          else Ok l)
         (fun l => if snd li then tlcs_invert sl l else Ok l)).

  (** the systems of some edges *)
  Fixpoint edge_systems (c : mgr) (es : list (string * string)) : res (list tlcs) :=
    match es with
    | [] => Ok []
    | e :: r => bind (edge_lcs c e) (fun l => bind (edge_systems c r) (fun w => Ok (fst l :: w)))
    end.

  (** [time_union(list_of_edges)], 1660-1707 *)
  Definition time_union (c : mgr) (es : list (string * string)) : res (option rtime) :=
    bind (edge_systems c es) (fun all =>
    let ls := filter (fun l => LcsTimeModel.is_some (lcs_axis l)) all in
    match ls with
    | [] => Ok None
    | _ =>
        let ref := match c_ref c with
                   | Some r => Some r
                   | None => if @uses_absolute_times tlcs D ops c
                             then min_list (somes (map tl_ref (@lcs_time_dependent tlcs D ops c)))
                             else None
                   end in
        let axis l := match lcs_axis l with Some ts => ts | None => [] end in
        let absolute l := match tl_ref l, ref with
                          | Some r, _ => map (fun t => t + r) (axis l)
                          | None, Some r => map (fun t => t + r) (axis l)
                          | None, None => axis l
                          end in
        let union := fold_right union_times [] (map absolute ls) in
        if forallb (fun l => LcsTimeModel.is_some (tl_ref l) || LcsTimeModel.is_some ref) ls then
          match union with
          | [] => Ok (Some (RT [] None))
          | t0 :: _ => Ok (Some (RT (map (fun t => t - t0) union) (Some t0)))
          end
        else if forallb (fun l => negb (LcsTimeModel.is_some (tl_ref l))) ls then Ok (Some (RT union None))
        else Err TypeError
    end).

  (** the loop at the end of [get_cs], 1243-1246 *)
  Fixpoint add_edges_up (c : mgr) (acc : tlcs) (es : list (string * string)) (time : option rtime)
           (tref : option Z) : res tlcs :=
    match es with
    | [] => Ok acc
    | e :: r =>
        bind (cs_on_edge c e time tref false) (fun l =>
        bind (tlcs_add sl acc l) (fun s => add_edges_up c s r time tref))
    end.

  (** [get_cs], 1196-1246 *)
  Definition get_cs (c : mgr) (name : string) (ref : option string) (time : option rtime)
             (tref : option Z) : res tlcs :=
    bind (match ref with
          | Some r => Ok r
          | None => bind (get_parent c name) (fun p =>
                      match p with Some r => Ok r | None => Err ValueError end)
          end) (fun r =>
    if negb (has_cs c name && has_cs c r) then Err ValueError
    else if String.eqb name r then mk_tlcs sl (Const mid) (CArr (Const vzero)) None None
    else
      match shortest_path (c_edges c) name r with
      | None => Err NetworkXNoPath
      | Some p =>
          let es := path_edges p in
          bind (match time with
                | None => bind (time_union c es) (fun t => Ok (t, c_ref c))
                | Some t => Ok (Some t, match tref with None => c_ref c | Some _ => tref end)
                end) (fun tr =>
          let time := option_map (with_ref (snd tr)) (fst tr) in
          match es with
          | [] => Err IndexError
          | [e] => cs_on_edge c e time (snd tr) (negb (LcsTimeModel.is_some (snd tr)))
          | e :: rest =>
              bind (cs_on_edge c e time (snd tr) false) (fun l =>
                add_edges_up c l rest time (snd tr))
          end)
      end).

  (** [transform_data], 1709-1757, for points without time: the static system is
      applied to every point *)
  Definition transform_data (c : mgr) (pts : list vec) (source target : string) : res (list vec) :=
    bind (get_cs c source (Some target) None None) (fun l =>
      match tl_ori l, tl_pos l with
      | Const o, CArr (Const p) => Ok (map (fun v => vadd (mvec o v) p) pts)
      | _, _ => Err NotImplementedError
      end).
End Get.
