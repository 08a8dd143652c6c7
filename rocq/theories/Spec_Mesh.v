(** * Specification: what the buffers of a mesh describe *)

From Coq Require Import List ZArith Bool.
Import ListNotations.
From Verif Require Import Scalar Model_Mesh.
Local Open Scope Z_scope.

(** A mesh as documented in mesh.h: points, normals, texture coordinates, vertices as
    triples of indices, and the number of vertices of each polygon. *)
Record Buffers (T : Type) := mkBuffers {
  points : list (T * T * T); normals : list (T * T * T); texcoords : list (T * T);
  vertices : list (Z * Z * Z); counts : list Z }.
Arguments mkBuffers {T}. Arguments points {T}. Arguments normals {T}. Arguments texcoords {T}.
Arguments vertices {T}. Arguments counts {T}.

Definition flat3 {T} (l : list (T * T * T)) : list T := flat_map (fun p => [fst (fst p); snd (fst p); snd p]) l.
Definition flat2 {T} (l : list (T * T)) : list T := flat_map (fun p => [fst p; snd p]) l.
(** A vertex in the vertices buffer: 3 indices with texture coordinates, 2 without (the third
    is then not written). *)
Definition flatv (tex : bool) (l : list (Z * Z * Z)) : list Z :=
  flat_map (fun v => if tex then [fst (fst v); snd (fst v); snd v] else [fst (fst v); snd (fst v)]) l.

Definition mesh_holds {T} (d : Mesh T) (b : Buffers T) : Prop :=
  m_pos d = flat3 (points b) /\ m_nor d = flat3 (normals b) /\ m_texc d = flat2 (texcoords b) /\
  m_vert d = flatv (m_tex d) (vertices b) /\ m_vcounts d = counts b.

Definition below {A} (i : Z) (l : list A) : Prop := 0 <= i < Z.of_nat (length l).
Definition sumZ (l : list Z) : Z := fold_right Z.add 0 l.

(** Every index is in range, no polygon is empty, and the vertices are those of the closed
    polygons followed by [pending] ones. *)
Definition valid {T} (tex : bool) (b : Buffers T) (pending : Z) : Prop :=
  (forall p n t, In (p, n, t) (vertices b) ->
     below p (points b) /\ below n (normals b) /\ (tex = true -> below t (texcoords b))) /\
  (forall c, In c (counts b) -> 0 < c) /\
  0 <= pending /\ Z.of_nat (length (vertices b)) = sumZ (counts b) + pending.

(** The mesh is well formed; outside begin/end no vertex is pending. *)
Definition well_formed {T} (d : Mesh T) : Prop :=
  exists b, mesh_holds d b /\ valid (m_tex d) b (m_vcount d) /\ (m_mode d = None -> m_vcount d = 0).

(** The polygons: the vertices grouped according to the counts. *)
Fixpoint polygons {A} (cs : list Z) (l : list A) : list (list A) :=
  match cs with
  | [] => []
  | c :: cs' => firstn (Z.to_nat c) l :: polygons cs' (skipn (Z.to_nat c) l)
  end.
Definition faces {T} (b : Buffers T) : list (list (Z * Z * Z)) := polygons (counts b) (vertices b).

(** Successive calls; the caller catches the exceptions, but not a failed assert. *)
Fixpoint mesh_run {T} {S : Scalar T} (cs : list (mesh_call T)) (d : Mesh T) : res (Mesh T) :=
  match cs with
  | [] => Ok d
  | c :: cs' =>
      match mesh_step c d with
      | (Ok _, d') => mesh_run cs' d'
      | (Throw, d') => mesh_run cs' d'
      | (Abort, _) => Abort
      | (UB, _) => UB
      end
  end.

(** The precondition asserted by [normal]. *)
Definition near_unit {T} {S : Scalar T} (x y z : T) : bool :=
  (s_abs (x * x + y * y + z * z - #1) <=? ##1//100000)%sc.

(** When the documentation says that a call throws. *)
Definition must_throw {T} (d : Mesh T) (b : Buffers T) (c : mesh_call T) : Prop :=
  match c with
  | CPosition _ _ _ | CNormal _ _ _ | CTexCoord _ _ => False
  | CNormalAt i => ~ below i (normals b)
  | CTexCoordAt i => ~ below i (texcoords b)
  | CBegin _ => m_mode d <> None
  | CVertex i => m_mode d = None \/ ~ below i (points b) \/ m_curN d = None \/ (m_tex d = true /\ m_curT d = None)
  | CVertexXYZ _ _ _ => m_mode d = None \/ m_curN d = None \/ (m_tex d = true /\ m_curT d = None)
  | CEnd => m_mode d = None \/ (m_mode d = Some TRIANGLES /\ ~ (3 | m_vcount d)) \/ (m_mode d = Some QUADS /\ ~ (4 | m_vcount d))
  end.

(** [d'] is [d] with more data appended: nothing already there is changed. *)
Definition extends {T} (d d' : Mesh T) : Prop :=
  m_tex d' = m_tex d /\ (exists l, m_pos d' = m_pos d ++ l) /\ (exists l, m_nor d' = m_nor d ++ l) /\
  (exists l, m_texc d' = m_texc d ++ l) /\ (exists l, m_vert d' = m_vert d ++ l) /\ (exists l, m_vcounts d' = m_vcounts d ++ l).

(** ** The documented behaviour, as an abstract machine

    The faces are lists of vertices; between begin and end there is a mode and the vertices
    given so far. *)
Record AMesh (T : Type) := mkAMesh {
  a_points : list (T * T * T); a_normals : list (T * T * T); a_texcoords : list (T * T);
  a_faces : list (list (Z * Z * Z)); a_open : option (Mode * list (Z * Z * Z));
  a_curN : option Z; a_curT : option Z }.
Arguments mkAMesh {T}. Arguments a_points {T}. Arguments a_normals {T}. Arguments a_texcoords {T}.
Arguments a_faces {T}. Arguments a_open {T}. Arguments a_curN {T}. Arguments a_curT {T}.

(** Groups of k elements; the last one may be incomplete. *)
Fixpoint chunks_aux {A} (fuel k : nat) (l : list A) : list (list A) :=
  match fuel, l with
  | S f, _ :: _ => firstn k l :: chunks_aux f k (skipn k l)
  | _, _ => []
  end.
Definition chunks {A} (k : nat) (l : list A) : list (list A) := chunks_aux (length l) k l.

Definition belowb {A} (i : Z) (l : list A) : bool := (0 <=? i) && (i <? Z.of_nat (length l)).

(** A vertex from a position, if there is a current normal and, on a textured mesh, a current
    texture coordinate. *)
Definition avertex {T} (tex : bool) (i : Z) (a : AMesh T) : option (AMesh T) :=
  match a_open a, a_curN a, (if tex then a_curT a else Some 0) with
  | Some (m, vs), Some n, Some t =>
      if belowb i (a_points a) then
        Some (mkAMesh (a_points a) (a_normals a) (a_texcoords a) (a_faces a) (Some (m, vs ++ [(i, n, t)])) (a_curN a) (a_curT a))
      else None
  | _, _, _ => None
  end.

(** One call: whether it throws, and the mesh afterwards. *)
Definition astep {T} (tex : bool) (c : mesh_call T) (a : AMesh T) : bool * AMesh T :=
  match c with
  | CPosition x y z =>
      (false, mkAMesh (a_points a ++ [(x, y, z)]) (a_normals a) (a_texcoords a) (a_faces a) (a_open a) (a_curN a) (a_curT a))
  | CNormal x y z =>
      (false, mkAMesh (a_points a) (a_normals a ++ [(x, y, z)]) (a_texcoords a) (a_faces a) (a_open a)
                      (Some (Z.of_nat (length (a_normals a)))) (a_curT a))
  | CNormalAt i =>
      if belowb i (a_normals a) then
        (false, mkAMesh (a_points a) (a_normals a) (a_texcoords a) (a_faces a) (a_open a) (Some i) (a_curT a))
      else (true, a)
  | CTexCoord x y =>
      (false, mkAMesh (a_points a) (a_normals a) (a_texcoords a ++ [(x, y)]) (a_faces a) (a_open a)
                      (a_curN a) (Some (Z.of_nat (length (a_texcoords a)))))
  | CTexCoordAt i =>
      if belowb i (a_texcoords a) then
        (false, mkAMesh (a_points a) (a_normals a) (a_texcoords a) (a_faces a) (a_open a) (a_curN a) (Some i))
      else (true, a)
  | CBegin m =>
      match a_open a with
      | None => (false, mkAMesh (a_points a) (a_normals a) (a_texcoords a) (a_faces a) (Some (m, [])) (a_curN a) (a_curT a))
      | Some _ => (true, a)
      end
  | CVertex i => match avertex tex i a with Some a' => (false, a') | None => (true, a) end
  | CVertexXYZ x y z =>
      match a_open a with
      | None => (true, a)
      | Some _ =>
          (* the position is added even if the vertex is then refused *)
          let a1 := mkAMesh (a_points a ++ [(x, y, z)]) (a_normals a) (a_texcoords a) (a_faces a) (a_open a) (a_curN a) (a_curT a) in
          match avertex tex (Z.of_nat (length (a_points a))) a1 with Some a' => (false, a') | None => (true, a1) end
      end
  | CEnd =>
      let close fs := (false, mkAMesh (a_points a) (a_normals a) (a_texcoords a) (a_faces a ++ fs) None (a_curN a) (a_curT a)) in
      match a_open a with
      | None => (true, a)
      | Some (_, []) => close []
      | Some (POLYGON, vs) => close [vs]
      | Some (TRIANGLES, vs) => if (length vs mod 3 =? 0)%nat then close (chunks 3 vs) else (true, a)
      | Some (QUADS, vs) => if (length vs mod 4 =? 0)%nat then close (chunks 4 vs) else (true, a)
      end
  end.

Fixpoint arun {T} (tex : bool) (cs : list (mesh_call T)) (a : AMesh T) : list bool * AMesh T :=
  match cs with
  | [] => ([], a)
  | c :: cs' => let (b, a1) := astep tex c a in let (bs, a') := arun tex cs' a1 in (b :: bs, a')
  end.
Definition anew {T} : AMesh T := mkAMesh [] [] [] [] None None None.

(** The calls of [mesh_run] that threw. *)
Fixpoint mesh_trace {T} {S : Scalar T} (cs : list (mesh_call T)) (d : Mesh T) : list bool :=
  match cs with
  | [] => []
  | c :: cs' =>
      match mesh_step c d with
      | (Ok _, d') => false :: mesh_trace cs' d'
      | (_, d') => true :: mesh_trace cs' d'
      end
  end.

Definition pending {T} (a : AMesh T) : list (Z * Z * Z) := match a_open a with Some (_, vs) => vs | None => [] end.
(** The buffers of the mesh represent the abstract one. *)
Definition represents {T} (d : Mesh T) (a : AMesh T) : Prop :=
  mesh_holds d (mkBuffers (a_points a) (a_normals a) (a_texcoords a) (concat (a_faces a) ++ pending a)
                          (map (fun f => Z.of_nat (length f)) (a_faces a))) /\
  m_mode d = option_map fst (a_open a) /\ m_vcount d = Z.of_nat (length (pending a)) /\
  m_curN d = a_curN a /\ m_curT d = a_curT a.
