(** * Model of malstroem/algorithms/flow.py, _raster_utils.py and the compiled flow functions

    Flow directions are integers (uint8 in the code): 0..7 clockwise from up, 8 = no direction.
    Accumulated flow is an integer; the code stores it as float64, which is exact
    below 2^53.  Labels are integers. *)

From Verif Require Import Base Num Float64.

(** flow.py 30-38 *)
Definition FLOWDIR_UP : Z := 0.
Definition FLOWDIR_UP_RIGHT : Z := 1.
Definition FLOWDIR_RIGHT : Z := 2.
Definition FLOWDIR_DOWN_RIGHT : Z := 3.
Definition FLOWDIR_DOWN : Z := 4.
Definition FLOWDIR_DOWN_LEFT : Z := 5.
Definition FLOWDIR_LEFT : Z := 6.
Definition FLOWDIR_UP_LEFT : Z := 7.
Definition FLOWDIR_NODIR : Z := 8.

(** _raster_utils.py 18-37, [cell_in_raster] *)
Definition cell_in_raster (rows cols : Z) (c : cell) : bool :=
  if negb ((0 <=? fst c) && (fst c <? rows)) then false
  else if negb ((0 <=? snd c) && (snd c <? cols)) then false
  else true.

(** _raster_utils.py 40-60, [edge_cell_indexes] *)
Definition edge_cell_indexes (rows cols : Z) : list cell :=
  let maxr := rows - 1 in
  let maxc := cols - 1 in
  flat_map (fun c => [(0, c); (maxr, c)]) (pyrange 0 (maxc + 1) 1) ++
  flat_map (fun r => [(r, 0); (r, maxc)]) (pyrange 1 maxr 1).

Section TerrainFlow.
Context {T : Type}.
Variable ops : NumOps T.
(** What a drop towards a diagonal neighbour is turned into:
    [/ SQRT2] in flow.py, [* INV_SQRT2] in _flow.pyx. *)
Variable on_diag : T -> T.

(** flow.py 75-113 / _flow.pyx 131-171: the eight blocks of the loop body, in
    order: row offset, column offset, diagonal or not, direction. *)
Definition flow_blocks : list (Z * Z * bool * Z) :=
  [ (-1,  0, false, FLOWDIR_UP);
    (-1,  1, true,  FLOWDIR_UP_RIGHT);
    ( 0,  1, false, FLOWDIR_RIGHT);
    ( 1,  1, true,  FLOWDIR_DOWN_RIGHT);
    ( 1,  0, false, FLOWDIR_DOWN);
    ( 1, -1, true,  FLOWDIR_DOWN_LEFT);
    ( 0, -1, false, FLOWDIR_LEFT);
    (-1, -1, true,  FLOWDIR_UP_LEFT) ].

(** One block: [dz = ...; if dz > dzmax: dzmax = dz; i = DIR] *)
Definition flow_block (terrain : raster T) (r c : Z) (z : T) (st : Z * T) (b : Z * Z * bool * Z)
  : res (Z * T) :=
  let '(dr, dc, dg, dir) := b in
  let '(i, dzmax) := st in
  n <- rd terrain (r + dr) (c + dc) ;;
  let drop := nsub ops z n in
  let dz := if dg then on_diag drop else drop in
  Ok (if nltb ops dzmax dz then (dir, dz) else (i, dzmax)).

(** flow.py 62-114: the loop body for one cell. *)
Definition flow_cell (terrain : raster T) (flow : raster Z) (rc : cell) : res (raster Z) :=
  let (r, c) := rc in
  z <- rd terrain r c ;;
  st <- mfold (flow_block terrain r c z) flow_blocks (FLOWDIR_NODIR, nofZ ops 0) ;;
  wr flow r c (fst st).

(** flow.py 43-115, [_terrain_flow] / _flow.pyx 99-176, [terrain_flow].  (The
    compiled loop bounds are unsigned; they agree for at least two rows and columns.) *)
Definition terrain_flow (terrain : raster T) : res (raster Z) :=
  let rows := nrows terrain in
  let cols := ncols terrain in
  let flow := mkRaster rows cols (fun _ _ => FLOWDIR_NODIR) in
  let maxrow := rows - 2 in
  let maxcol := cols - 2 in
  mfold (flow_cell terrain)
    (flat_map (fun r => map (fun c => (r, c)) (pyrange 1 (maxcol + 1) 1)) (pyrange 1 (maxrow + 1) 1))
    flow.
End TerrainFlow.

(** numpy [a[i, :] = v] and [a[:, j] = v] *)
Definition fill_row {T} (a : raster T) (i : Z) (v : T) : res (raster T) :=
  match pyidx (nrows a) i with
  | Some i' => Ok (mkRaster (nrows a) (ncols a) (fun r c => if r =? i' then v else rget a r c))
  | None => Exc IndexError
  end.
Definition fill_col {T} (a : raster T) (j : Z) (v : T) : res (raster T) :=
  match pyidx (ncols a) j with
  | Some j' => Ok (mkRaster (nrows a) (ncols a) (fun r c => if c =? j' then v else rget a r c))
  | None => Exc IndexError
  end.

(** flow.py 118-139, [set_edges_flow_outward] *)
Definition set_edges_flow_outward (flowdir : raster Z) : res (raster Z) :=
  let maxr := nrows flowdir - 1 in
  let maxc := ncols flowdir - 1 in
  f <- fill_row flowdir 0 FLOWDIR_UP ;;
  f <- fill_row f maxr FLOWDIR_DOWN ;;
  f <- fill_col f 0 FLOWDIR_LEFT ;;
  f <- fill_col f maxc FLOWDIR_RIGHT ;;
  f <- wr f 0 0 FLOWDIR_UP_LEFT ;;
  f <- wr f 0 maxc FLOWDIR_UP_RIGHT ;;
  f <- wr f maxr 0 FLOWDIR_DOWN_LEFT ;;
  wr f maxr maxc FLOWDIR_DOWN_RIGHT.

(** flow.py 142-167, [terrain_flowdirection] *)
Definition terrain_flowdirection {T} (ops : NumOps T) (on_diag : T -> T)
    (terrain : raster T) (edges_flow_outward : bool) : res (raster Z) :=
  f <- terrain_flow ops on_diag terrain ;;
  if edges_flow_outward then set_edges_flow_outward f else Ok f.

(** Python and compiled version on float64 terrain (flow.py 22 [SQRT2 = math.sqrt(2)],
    _flow.pyx 93-94). *)
Definition flowdir64 : raster b64 -> bool -> res (raster Z) :=
  terrain_flowdirection F64Ops (fun x => f64_div x f64_sqrt2).
Definition flowdir64_cy : raster b64 -> bool -> res (raster Z) :=
  terrain_flowdirection F64Ops (fun x => f64_mul x f64_inv_sqrt2).

(** flow.py 170-214, [direction_to_delta] ([None] for no direction). *)
Definition direction_to_delta (direction : Z) : res (option (Z * Z)) :=
  if direction =? FLOWDIR_UP then Ok (Some (-1, 0))
  else if direction =? FLOWDIR_UP_RIGHT then Ok (Some (-1, 1))
  else if direction =? FLOWDIR_RIGHT then Ok (Some (0, 1))
  else if direction =? FLOWDIR_DOWN_RIGHT then Ok (Some (1, 1))
  else if direction =? FLOWDIR_DOWN then Ok (Some (1, 0))
  else if direction =? FLOWDIR_DOWN_LEFT then Ok (Some (1, -1))
  else if direction =? FLOWDIR_LEFT then Ok (Some (0, -1))
  else if direction =? FLOWDIR_UP_LEFT then Ok (Some (-1, -1))
  else if direction =? FLOWDIR_NODIR then Ok None
  else Exc PlainException.

(** flow.py 217-230, [cell_in_direction]: [None] is not subscriptable. *)
Definition cell_in_direction (c : cell) (direction : Z) : res cell :=
  delta <- direction_to_delta direction ;;
  match delta with
  | Some (dr, dc) => Ok (fst c + dr, snd c + dc)
  | None => Exc TypeError
  end.

(** flow.py 233-254, [is_upstream_cell] *)
Definition is_upstream_cell (flowdir : raster Z) (this_cell : cell) (direction : Z) : res bool :=
  to_cell <- cell_in_direction this_cell direction ;;
  if negb (cell_in_raster (nrows flowdir) (ncols flowdir) to_cell) then Ok false
  else
    neighbor_direction <- rd flowdir (fst to_cell) (snd to_cell) ;;
    if neighbor_direction =? FLOWDIR_NODIR then Ok false
    else Ok ((direction + 4) mod 8 =? neighbor_direction).

(** flow.py 257-276, [upstream_cells] *)
Definition upstream_cells (flowdir : raster Z) (c : cell) : res (list cell) :=
  mfold (fun upstream direction =>
           up <- is_upstream_cell flowdir c direction ;;
           if (up : bool) then
             u <- cell_in_direction c direction ;; Ok (upstream ++ [u])
           else Ok upstream)
    (pyrange 0 8 1) [].

(** flow.py 279-301, [trace_downstream], the whole iteration as a list. *)
Fixpoint trace_downstream (fuel : nat) (flowdir : raster Z) (c : cell) : res (list cell) :=
  if cell_in_raster (nrows flowdir) (ncols flowdir) c then
    match fuel with
    | O => Timeout
    | S k =>
        direction <- rd flowdir (fst c) (snd c) ;;
        delta <- direction_to_delta direction ;;
        match delta with
        | Some (dr, dc) =>
            rest <- trace_downstream k flowdir (fst c + dr, snd c + dc) ;; Ok (c :: rest)
        | None => Ok [c]
        end
    end
  else Ok [].

(** flow.py 320-328, [sum_cells]; [sm] is the running sum, started at 0. *)
Fixpoint sum_cells (cells : list cell) (grid : raster Z) (sm : Z) : res Z :=
  match cells with
  | [] => Ok sm
  | c :: t =>
      val <- rd grid (fst c) (snd c) ;;
      if val <=? 0 then Ok (-1)
      else v <- rd grid (fst c) (snd c) ;; sum_cells t grid (sm + v)
  end.

(** flow.py 304-341, [trace_accumulated_flow] *)
Fixpoint trace_accumulated_flow (fuel : nat) (flowdir accum : raster Z) (c : cell) : res (raster Z) :=
  if cell_in_raster (nrows flowdir) (ncols flowdir) c then
    match fuel with
    | O => Timeout
    | S k =>
        cells <- upstream_cells flowdir c ;;
        s <- (match cells with
              | [] => Ok (Some 0)
              | _ => s <- sum_cells cells accum 0 ;;
                     Ok (if s <=? 0 then None else Some s)
              end) ;;
        match s with
        | None => Ok accum
        | Some s =>
            accum <- wr accum (fst c) (snd c) (s + 1) ;;
            direction <- rd flowdir (fst c) (snd c) ;;
            next <- cell_in_direction c direction ;;
            trace_accumulated_flow k flowdir accum next
        end
    end
  else Ok accum.

(** flow.py 344-364, [accumulated_flow] *)
Definition accumulated_flow (fuel : nat) (flowdir : raster Z) : res (raster Z) :=
  let accum := mkRaster (nrows flowdir) (ncols flowdir) (fun _ _ => 0) in
  mfold (fun accum c =>
           up_cells <- upstream_cells flowdir c ;;
           match up_cells with
           | [] => trace_accumulated_flow fuel flowdir accum c
           | _ => Ok accum
           end)
    (rcells flowdir) accum.

(** _flow.pyx 212-222, [is_upstream_cython] *)
Definition is_upstream_cy (flowdir : raster Z) (direction_to : Z) (to_cell : cell) : bool :=
  let agnps := at_ flowdir to_cell in
  if (agnps >? 7) || (agnps <? 0) then false
  else (direction_to + 4) mod 8 =? agnps.

(** _flow.pyx 180-204, [cell_in_direction_cython].  With no direction the C code
    uses an uninitialised offset; here that is [None] and not modelled further. *)
Definition cell_in_direction_cy (c : cell) (direction : Z) : option cell :=
  let delta :=
    if direction =? 0 then Some (-1, 0)
    else if direction =? 1 then Some (-1, 1)
    else if direction =? 2 then Some (0, 1)
    else if direction =? 3 then Some (1, 1)
    else if direction =? 4 then Some (1, 0)
    else if direction =? 5 then Some (1, -1)
    else if direction =? 6 then Some (0, -1)
    else if direction =? 7 then Some (-1, -1)
    else None in
  match delta with Some (dr, dc) => Some (fst c + dr, snd c + dc) | None => None end.

(** _flow.pyx 234-243: the loop over the neighbours.  [None]: an unresolved upstream cell. *)
Fixpoint sum_upstream_cy (flowdir accum : raster Z) (c : cell) (directions : list Z) (s : Z)
  : option Z :=
  match directions with
  | [] => Some s
  | d :: t =>
      match cell_in_direction_cy c d with
      | Some nb =>
          if cell_in_raster (nrows flowdir) (ncols flowdir) nb && is_upstream_cy flowdir d nb then
            let upstream_accum := at_ accum nb in
            if upstream_accum <=? 0 then None
            else sum_upstream_cy flowdir accum c t (s + upstream_accum)
          else sum_upstream_cy flowdir accum c t s
      | None => sum_upstream_cy flowdir accum c t s
      end
  end.

(** _flow.pyx 226-247, [trace_accumulated_flow_cython].  Indices are in range
    (boundscheck is off); the undefined behaviour at a cell without direction is
    written as [Exc PlainException]. *)
Fixpoint trace_accumulated_flow_cy (fuel : nat) (flowdir accum : raster Z) (c : cell)
  : res (raster Z) :=
  if cell_in_raster (nrows flowdir) (ncols flowdir) c then
    match fuel with
    | O => Timeout
    | S k =>
        match sum_upstream_cy flowdir accum c (pyrange 0 8 1) 0 with
        | None => Ok accum
        | Some s =>
            let accum := rset accum (fst c) (snd c) (s + 1) in
            match cell_in_direction_cy c (at_ flowdir c) with
            | Some next => trace_accumulated_flow_cy k flowdir accum next
            | None => Exc PlainException
            end
        end
    end
  else Ok accum.

(** _flow.pyx 257-273, [accumulated_flow] *)
Definition accumulated_flow_cy (fuel : nat) (flowdir : raster Z) : res (raster Z) :=
  mfold (trace_accumulated_flow_cy fuel flowdir) (rcells flowdir)
    (mkRaster (nrows flowdir) (ncols flowdir) (fun _ _ => 0)).

(** flow.py 380-395: the loop of [assign_watersheds_upstream]; the head of the
    stack is its right end. *)
Fixpoint assign_loop (fuel : nat) (flowdir labelled : raster Z) (unassigned : Z)
    (stack : list (cell * Z)) : res (raster Z) :=
  match stack with
  | [] => Ok labelled
  | (c, below) :: rest =>
      match fuel with
      | O => Timeout
      | S k =>
          lbl <- rd labelled (fst c) (snd c) ;;
          '(labelled, lbl) <-
            (if lbl =? unassigned then
               labelled <- wr labelled (fst c) (snd c) below ;; Ok (labelled, below)
             else Ok (labelled, lbl)) ;;
          ups <- upstream_cells flowdir c ;;
          assign_loop k flowdir labelled unassigned (rev (map (fun u => (u, lbl)) ups) ++ rest)
      end
  end.

(** flow.py 367-395, [assign_watersheds_upstream] *)
Definition assign_watersheds_upstream (fuel : nat) (flowdir labelled : raster Z) (c : cell)
    (unassigned : Z) : res (raster Z) :=
  assign_loop fuel flowdir labelled unassigned [(c, unassigned)].

(** flow.py 398-412, [watersheds_from_labels] *)
Definition watersheds_from_labels (fuel : nat) (flowdir labelled : raster Z) (unassigned : Z)
  : res (raster Z) :=
  mfold (fun labelled c => assign_watersheds_upstream fuel flowdir labelled c unassigned)
    (edge_cell_indexes (nrows flowdir) (ncols flowdir)) labelled.

(** _flow.pyx 277-394: the compiled loop (int32, int64 and fallback version are the
    same text) pushes upstream neighbours one by one. *)
Definition upstream_cy (flowdir : raster Z) (c : cell) : list cell :=
  flat_map (fun d => match cell_in_direction_cy c d with
                     | Some nb => if cell_in_raster (nrows flowdir) (ncols flowdir) nb
                                     && is_upstream_cy flowdir d nb then [nb] else []
                     | None => []
                     end) (pyrange 0 8 1).
Fixpoint assign_loop_cy (fuel : nat) (flowdir labelled : raster Z) (unassigned : Z)
    (stack : list (cell * Z)) : res (raster Z) :=
  match stack with
  | [] => Ok labelled
  | (c, below) :: rest =>
      match fuel with
      | O => Timeout
      | S k =>
          let lbl := at_ labelled c in
          let '(labelled, lbl) :=
            if lbl =? unassigned then (rset labelled (fst c) (snd c) below, below)
            else (labelled, lbl) in
          assign_loop_cy k flowdir labelled unassigned
            (rev (map (fun u => (u, lbl)) (upstream_cy flowdir c)) ++ rest)
      end
  end.
Definition watersheds_from_labels_cy (fuel : nat) (flowdir labelled : raster Z) (unassigned : Z)
  : res (raster Z) :=
  mfold (fun labelled c => assign_loop_cy fuel flowdir labelled unassigned [(c, unassigned)])
    (edge_cell_indexes (nrows flowdir) (ncols flowdir)) labelled.
