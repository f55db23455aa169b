(** Drawing of the graph of a [CoordinateSystemManager]: the positions of the systems
    ([_get_tree_positions_for_plot], weldx/transformations/cs_manager.py 1431-1462) and
    the edges that are drawn ([plot_graph], 1465-1527).

    Numbers are rational. The drawing itself is left out. *)
From Coq Require Import List String Bool ZArith QArith.
From Verif Require Import Base CsmModel.
Import ListNotations.

(** An entry of [meta_data]: the position (x, level) and the boundaries. *)
Record slot : Type := Slot { sl_x : Q; sl_level : Z; sl_lo : Q; sl_hi : Q }.

Section Draw.
  Context {T D : Type} {ops : LcsOps T}.
  Notation mgr := (csm T D).
  Definition num (n : nat) : Q := inject_Z (Z.of_nat n).

  (** the loop 1448-1454 *)
  Fixpoint put_children (ch : list string) (i : nat) (lo delta : Q) (level : Z) (m : dict slot) : dict slot :=
    match ch with
    | [] => m
    | n :: r =>
        put_children r (S i) lo delta level
          (dset n (Slot (lo + (num i + (1 # 2)) * delta) (- level)
                        (lo + num i * delta) (lo + (num i + 1) * delta)) m)
    end.

  (** the loop 1439-1455 *)
  Fixpoint put_level (c : mgr) (names : list string) (level : Z) (m : dict slot) (next : list string)
    : res (dict slot * list string) :=
    match names with
    | [] => Ok (m, next)
    | x :: r =>
        bind (get_children c x) (fun ch =>
        match ch with
        | [] => put_level c r level m next
        | _ =>
            match dget x m with
            | None => Err KeyError
            | Some s =>
                let delta := (sl_hi s - sl_lo s) / num (List.length ch) in
                put_level c r level (put_children ch 0 (sl_lo s) delta level m) (next ++ ch)
            end
        end)
    end.

  (** the [while] loop 1437-1458; [fuel] bounds the number of rounds *)
  Fixpoint put_levels (fuel : nat) (c : mgr) (names : list string) (level : Z) (m : dict slot) : res (dict slot) :=
    match names with
    | [] => Ok m
    | _ =>
        match fuel with
        | O => Err OutOfFuel
        | S f => bind (put_level c names level m []) (fun p => put_levels f c (snd p) (level + 1) (fst p))
        end
    end.

  Definition layout (c : mgr) : res (dict slot) :=
    put_levels (S (List.length (c_nodes c))) c [c_root c] 1 [(c_root c, Slot 1 0 0 2)].
  (** 1460-1462 *)
  Definition positions (c : mgr) : res (dict (Q * Z)) :=
    bind (layout c) (fun m => Ok (map (fun p => (fst p, (sl_x (snd p), sl_level (snd p)))) m)).

  (** *** [plot_graph]: the edges *)
  (** 1494-1496 *)
  Definition all_edges (c : mgr) : list (string * string) :=
    map (fun e => (e_src e, e_dst e)) (filter (fun e => negb (e_def e)) (c_edges c)).
  (** 1498-1503 *)
  Definition edge_time_dependent (c : mgr) (e : string * string) : bool :=
    match find_edge (c_edges c) (fst e) (snd e) with
    | Some x => match e_tr x with None => true | Some t => l_timedep t end
    | None => false
    end.
  Definition same_edge (a b : string * string) : bool := (String.eqb (fst a) (fst b) && String.eqb (snd a) (snd b))%bool.
  (** 1506-1507 *)
  Definition tdp_edges (c : mgr) : list (string * string) := filter (edge_time_dependent c) (all_edges c).
  Definition stc_edges (c : mgr) : list (string * string) :=
    filter (fun e => negb (existsb (same_edge e) (tdp_edges c))) (all_edges c).
End Draw.
