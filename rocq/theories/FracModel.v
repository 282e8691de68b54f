(** Regions of a fractured box: make_regions, make_decomposition and the region ids of fill_lg, mlmc/random/frac_geom.py:33-136. *)
From Coq Require Import String.
From Verif Require Import Base.

(** Attributes of lg.Region set by [add_reg], frac_geom.py:33-36; the mesh step is a number of any type. *)
Record region (T : Type) := mkRegion { r_name : string * option nat; r_dim : Z; r_step : T; r_boundary : bool; r_not_used : bool; r_id : nat }.
Arguments mkRegion {T}. Arguments r_name {T}. Arguments r_dim {T}. Arguments r_step {T}. Arguments r_boundary {T}. Arguments r_not_used {T}. Arguments r_id {T}.

(** [add_reg], frac_geom.py:33-36; the name "frac_{}".format(i) is the pair ("frac_", Some i). *)
Definition add_reg {T} (regions : list (region T)) (name : string * option nat) (dim : Z) (step : T) (bc not_used : bool) : list (region T) :=
  regions ++ [mkRegion name dim step bc not_used (List.length regions)].
(** [make_regions], frac_geom.py:38-46; [zero] is the default 0.0 of step; [n]: len(fractures). *)
Definition make_regions {T} (zero mesh_step frac_step : T) (n : nat) : list (region T) :=
  let regions := add_reg [] ("NONE"%string, None) (-1) zero false true in
  let regions := add_reg regions ("bulk_0"%string, None) 2 mesh_step false false in
  let regions := add_reg regions (".bc_inflow"%string, None) 1 zero true false in
  let regions := add_reg regions (".bc_outflow"%string, None) 1 zero true false in
  fold_left (fun rs f_id => add_reg rs ("frac_"%string, Some f_id) 1 frac_step false false) (seq 0 n) regions.

(** A python dict with integer keys, as a list of pairs in the order of insertion. *)
Definition zdict (A : Type) := list (Z * A).
(** d[key]; KeyError. *)
Fixpoint zget {A} (d : zdict A) (k : Z) : res A :=
  match d with [] => Err KeyError | (k', v) :: d' => if Z.eqb k k' then Ok v else zget d' k end.
(** d[key] = v. *)
Fixpoint zput {A} (d : zdict A) (k : Z) (v : A) : zdict A :=
  match d with [] => [(k, v)] | (k', v') :: d' => if Z.eqb k k' then (k', v) :: d' else (k', v') :: zput d' k v end.
(** l[i] for a list; IndexError. *)
Definition lget {A} (l : list A) (i : nat) : res A := match nth_error l i with Some x => Ok x | None => Err IndexError end.
(** A for loop over a list, stopped by the first exception. *)
Fixpoint floop {A S} (body : S -> A -> res S) (l : list A) (s : S) : res S :=
  match l with [] => Ok s | x :: l' => bind (body s x) (floop body l') end.
(** A list comprehension, stopped by the first exception. *)
Fixpoint comp {A B} (f : A -> res B) (l : list A) : res (list B) :=
  match l with [] => Ok [] | x :: l' => bind (f x) (fun y => bind (comp f l') (fun r => Ok (y :: r))) end.

(** The common decomposition: the keys of its points, segments and polygons (an object's id is its key). *)
Record decomp := mkDecomp { d_points : list Z; d_segments : list Z; d_polygons : list Z }.
(** One element of [maps] of merge.intersect_decompositions (outside the repository, arbitrary here): new id to original id for segments and
    polygons; the maps of points are not used. *)
Record omap := mkOmap { m_seg : zdict Z; m_poly : zdict Z }.

Section Decomposition.
Context {T : Type}.
Notation rmap := (zdict (region T)).

(** {key: regions[none_region_id] for key in ...}, frac_geom.py:76. *)
Definition none_map (regions : list (region T)) (keys : list Z) : res rmap :=
  floop (fun m key => bind (lget regions 0) (fun r => Ok (zput m key r))) keys [].
(** The loop over fractures, frac_geom.py:77-79; i is the counter of enumerate. *)
Fixpoint frac_loop (regions : list (region T)) (i : nat) (fmaps : list omap) (segs : rmap) : res rmap :=
  match fmaps with
  | [] => Ok segs
  | f :: rest => bind (floop (fun m e => bind (lget regions (4 + i)) (fun r => Ok (zput m (fst e) r))) (m_seg f) segs) (frac_loop regions (S i) rest)
  end.
(** The loop over polygons of the box, frac_geom.py:81-84. *)
Definition poly_loop (regions : list (region T)) (box : zdict Z) (polys : rmap) : res rmap :=
  floop (fun m e => if Z.eqb (snd e) 0 then Ok m else bind (lget regions 1) (fun r => Ok (zput m (fst e) r))) box polys.
(** The loop over segments of the box, frac_geom.py:86-90. *)
Definition bc_loop (regions : list (region T)) (inflow outflow : Z) (box : zdict Z) (segs : rmap) : res rmap :=
  floop (fun m e => bind (if Z.eqb (snd e) inflow then bind (lget regions 2) (fun r => Ok (zput m (fst e) r)) else Ok m)
    (fun m => if Z.eqb (snd e) outflow then bind (lget regions 3) (fun r => Ok (zput m (fst e) r)) else Ok m)) box segs.
(** [make_decomposition], frac_geom.py:49-93, after the intersection; [inflow], [outflow]: ids of the segments of the box given by add_line.
    Simplified: the geometry (lines 50-66) is not modelled, its results are the arguments [d], [maps], [inflow], [outflow]. *)
Definition make_decomposition (d : decomp) (maps : list omap) (inflow outflow : Z) (regions : list (region T)) : res (rmap * rmap * rmap) :=
  bind (none_map regions (d_points d)) (fun pts =>
  bind (none_map regions (d_segments d)) (fun segs =>
  bind (none_map regions (d_polygons d)) (fun polys =>
  bind (frac_loop regions 0 (tl maps) segs) (fun segs =>
  bind (lget maps 0) (fun box =>
  bind (poly_loop regions (m_poly box) polys) (fun polys =>
  bind (bc_loop regions inflow outflow (m_seg box) segs) (fun segs => Ok (pts, segs, polys)))))))).
(** The three lists of region ids of the layer, [fill_lg], frac_geom.py:112-118: polygons, segments, nodes. Simplified: the rest of fill_lg
    only stores its arguments in the geometry. *)
Definition fill_ids (d : decomp) (reg_map : rmap * rmap * rmap) : res (list nat * list nat * list nat) :=
  let '(pts, segs, polys) := reg_map in
  let ids (m : rmap) := comp (fun k => bind (zget m k) (fun r => Ok (r_id r))) in
  bind (ids polys (d_polygons d)) (fun pl => bind (ids segs (d_segments d)) (fun sg => bind (ids pts (d_points d)) (fun nd => Ok (pl, sg, nd)))).
(** [make_frac_mesh], frac_geom.py:18-30, up to the region ids; [n]: len(fractures). *)
Definition make_frac_mesh (zero mesh_step frac_step : T) (n : nat) (d : decomp) (maps : list omap) (inflow outflow : Z) : res (list nat * list nat * list nat) :=
  bind (make_decomposition d maps inflow outflow (make_regions zero mesh_step frac_step n)) (fill_ids d).
End Decomposition.
