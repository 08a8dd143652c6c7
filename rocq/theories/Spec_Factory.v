(** * Specification: closed surfaces and boxes *)

From Coq Require Import List ZArith Bool Reals.
Import ListNotations.
From Verif Require Import Scalar RInst Model_Mesh Spec_Mesh.
Local Open Scope Z_scope.

(** Position and normal indices of a vertex. *)
Definition v_pos (v : Z * Z * Z) : Z := fst (fst v).
Definition v_nor (v : Z * Z * Z) : Z := snd (fst v).

(** The directed edges of a polygon, from each vertex to the following one, cyclically. *)
Definition edges (f : list Z) : list (Z * Z) := match f with [] => [] | a :: l => combine f (l ++ [a]) end.
Definition all_edges (fs : list (list (Z * Z * Z))) : list (Z * Z) := flat_map (fun f => edges (map v_pos f)) fs.
Definition edge_dec (e e' : Z * Z) : {e = e'} + {e <> e'}.
Proof. decide equality; apply Z.eq_dec. Defined.
(** How many times the polygons go from position [u] to position [v]. *)
Definition traversals (fs : list (list (Z * Z * Z))) (u v : Z) : nat := count_occ edge_dec (all_edges fs) (u, v).

(** The surface has no boundary and is consistently oriented: each edge is followed as many
    times in one direction as in the other. *)
Definition closed_surface (fs : list (list (Z * Z * Z))) : Prop := forall u v, traversals fs u v = traversals fs v u.

(** Nothing but the points, normals and faces given are added, and begin/end is closed. *)
Definition adds {T} (a a' : AMesh T) (ps ns : list (T * T * T)) (fs : list (list (Z * Z * Z))) : Prop :=
  a_points a' = a_points a ++ ps /\ a_normals a' = a_normals a ++ ns /\ a_texcoords a' = a_texcoords a /\
  a_faces a' = a_faces a ++ fs /\ a_open a' = None /\ a_curT a' = a_curT a.

(** Vertices refer to existing points and normals. *)
Definition indices_ok {T} (a : AMesh T) (fs : list (list (Z * Z * Z))) : Prop :=
  forall f v, In f fs -> In v f -> below (v_pos v) (a_points a) /\ below (v_nor v) (a_normals a).

(** Ready for a shape: outside begin/end and, on a textured mesh, with a current texture
    coordinate; [n] more vertices are far from overflowing the counters. *)
Definition ready {T} (tex : bool) (a : AMesh T) (n : Z) : Prop :=
  a_open a = None /\ (tex = true -> a_curT a <> None) /\ Z.of_nat (length (concat (a_faces a))) + n < 2^31.

Local Open Scope R_scope.
Notation V3 := (R * R * R)%type.
Definition cx (p : V3) : R := fst (fst p).
Definition cy (p : V3) : R := snd (fst p).
Definition cz (p : V3) : R := snd p.
Definition vdot (p q : V3) : R := cx p * cx q + cy p * cy q + cz p * cz q.
Definition vsub (p q : V3) : V3 := (cx p - cx q, cy p - cy q, cz p - cz q).
Definition vadd (p q : V3) : V3 := (cx p + cx q, cy p + cy q, cz p + cz q).
Definition vscale (k : R) (p : V3) : V3 := (k * cx p, k * cy p, k * cz p).
Definition vcross (p q : V3) : V3 := (cy p * cz q - cz p * cy q, cz p * cx q - cx p * cz q, cx p * cy q - cy p * cx q).

(** The eight corners of a box. *)
Definition is_corner (hx hy hz : R) (c : V3) : Prop :=
  (cx c = hx \/ cx c = - hx) /\ (cy c = hy \/ cy c = - hy) /\ (cz c = hz \/ cz c = - hz).

(** The points and the normals of the vertices of a face. *)
Definition pt (a : AMesh R) (v : Z * Z * Z) (p : V3) : Prop := nth_error (a_points a) (Z.to_nat (v_pos v)) = Some p.
Definition nrm (a : AMesh R) (v : Z * Z * Z) (p : V3) : Prop := nth_error (a_normals a) (Z.to_nat (v_nor v)) = Some p.

(** A quadrilateral lying in the face of the box whose outward normal is [n] - a unit vector
    along an axis -, turning counterclockwise seen from outside. *)
Definition outward_quad (a : AMesh R) (hx hy hz : R) (f : list (Z * Z * Z)) : Prop :=
  exists v0 v1 v2 v3 p0 p1 p2 p3 n, f = [v0; v1; v2; v3] /\
    pt a v0 p0 /\ pt a v1 p1 /\ pt a v2 p2 /\ pt a v3 p3 /\
    nrm a v0 n /\ nrm a v1 n /\ nrm a v2 n /\ nrm a v3 n /\
    In n [(1, 0, 0); (-1, 0, 0); (0, 1, 0); (0, -1, 0); (0, 0, 1); (0, 0, -1)] /\
    (* the support of the box in the direction n *)
    (let h := Rabs (cx n) * hx + Rabs (cy n) * hy + Rabs (cz n) * hz in
     vdot n p0 = h /\ vdot n p1 = h /\ vdot n p2 = h /\ vdot n p3 = h) /\
    (* a rectangle, turning in the positive sense around n *)
    vsub p1 p0 = vsub p2 p3 /\ vdot (vsub p1 p0) (vsub p3 p0) = 0 /\
    (0 < hx -> 0 < hy -> 0 < hz -> 0 < vdot n (vcross (vsub p1 p0) (vsub p3 p0))).

(** The support function of the rounded box in the direction [n]: the box of half extents
    (ex, ey, ez) enlarged by [r] lies in the half space n.p <= support, and touches it. *)
Definition support (ex ey ez r : R) (n : V3) : R := ex * Rabs (cx n) + ey * Rabs (cy n) + ez * Rabs (cz n) + r.

(** A vertex of a rounded box: its normal [n] is a unit vector, its point is at distance [r]
    from a corner of the box, in the direction [n], and touches, up to [eps], the supporting
    plane with normal [n]. *)
Definition on_rounded_box (ex ey ez r eps : R) (p n : V3) : Prop :=
  vdot n n = 1 /\ (exists c, is_corner ex ey ez c /\ p = vadd c (vscale r n)) /\
  support ex ey ez r n - eps <= vdot n p <= support ex ey ez r n.

(** The number of vertical lines (meridians) and of points: one sector of 4 (nb + 1)
    meridians around a vertical segment, two half turns around a vertical rectangle, four quarters around a box;
    [n] points on each meridian, and two poles for each sector. *)
Definition rounded_box_points (ex ey ez : R) (nb : Z) : Z :=
  (let n := 2 * nb + (if Req_EM_T ez 0 then 1 else 2) in
   if Req_EM_T ex 0 then
     if Req_EM_T ey 0 then 2 + 4 * (nb + 1) * n else 2 * (2 + (2 * (nb + 1) + 1) * n)
   else if Req_EM_T ey 0 then 2 * (2 + (2 * (nb + 1) + 1) * n) else 4 * (2 + (nb + 1 + 1) * n))%Z.
