(** * Meshes and the mesh factory

    Model of src/scenegraph/mesh.cpp and src/scenegraph/meshfactory.cpp. A std::vector is a
    list. Indices given by the caller and stored in vertices() are [Z]; a negative [Z]
    stands for the huge size_t obtained by wrapping. The number of elements of a vector is
    not bounded (std::length_error and std::bad_alloc are not modelled). The value NO_INDEX
    of the current normal and texture coordinate is [None] (simplification: the code could
    confuse it with the index of a 2^64-th normal). *)

From Coq Require Import List ZArith Bool Arith.
Import ListNotations.
From Verif Require Import Scalar.

Section Model.
Context {T : Type} {S : Scalar T}.
Local Open Scope sc_scope.

(** almath/scenegraph/mesh.h:121 *)
Inductive Mode := POLYGON | TRIANGLES | QUADS.

(** almath/scenegraph/mesh.h:164-178 *)
Record Mesh := mkMesh {
  m_tex : bool; m_pos : list T; m_nor : list T; m_texc : list T;
  m_vert : list Z; m_vcounts : list Z;
  m_mode : option Mode; m_vcount : Z; m_curN : option Z; m_curT : option Z }.

(** A call of a member function: its outcome and the mesh afterwards. *)
Definition MM (A : Type) := Mesh -> res A * Mesh.
Definition mret {A} (a : A) : MM A := fun d => (Ok a, d).
Definition mthrow {A} : MM A := fun d => (Throw, d).
Definition mabort {A} : MM A := fun d => (Abort, d).
Definition mub {A} : MM A := fun d => (UB, d).
(** Sequence: an exception or a failed assert ends the function. *)
Definition mbind {A B} (x : MM A) (k : A -> MM B) : MM B := fun d =>
  match x d with
  | (Ok a, d') => k a d'
  | (Throw, d') => (Throw, d')
  | (Abort, d') => (Abort, d')
  | (UB, d') => (UB, d')
  end.
Notation "x <- m ;; k" := (mbind m (fun x => k)) (at level 61, m at next level, right associativity).
Notation "m ;; k" := (mbind m (fun _ => k)) (at level 61, right associativity).
Definition massert (b : bool) : MM unit := if b then mret tt else mabort.

(** src/scenegraph/mesh.cpp:16-20 *)
Definition mesh_new (tex : bool) : Mesh := mkMesh tex [] [] [] [] [] None 0 None None.

(** src/scenegraph/mesh.cpp:24 *)
Definition verticesStride (d : Mesh) : Z := if m_tex d then 3 else 2.

(** src/scenegraph/mesh.cpp:28, 36, 44, 52, 62 *)
Definition positionsNb (d : Mesh) : Z := Z.of_nat (length (m_pos d)) / 3.
Definition normalsNb (d : Mesh) : Z := Z.of_nat (length (m_nor d)) / 3.
Definition texCoordsNb (d : Mesh) : Z := Z.of_nat (length (m_texc d)) / 2.
Definition verticesNb (d : Mesh) : Z := Z.of_nat (length (m_vert d)) / verticesStride d.
Definition polygonsNb (d : Mesh) : Z := Z.of_nat (length (m_vcounts d)).

(** std::vector::at: throws out of range. The result is the offset in the vector of the
    element whose address is returned. *)
Definition vec_at (n : nat) (i : Z) : res Z := if (i <? Z.of_nat n)%Z then Ok i else Throw.
(** src/scenegraph/mesh.cpp:30-32, 38-40, 46-48, 54-56: for a size_t [index], the product
    being computed modulo 2^64. *)
Definition positionPtrAt (d : Mesh) (index : Z) : res Z := vec_at (length (m_pos d)) (index * 3 mod 2^64).
Definition normalPtrAt (d : Mesh) (index : Z) : res Z := vec_at (length (m_nor d)) (index * 3 mod 2^64).
Definition texCoordPtrAt (d : Mesh) (index : Z) : res Z := vec_at (length (m_texc d)) (index * 2 mod 2^64).
Definition vertexPtrAt (d : Mesh) (index : Z) : res Z := vec_at (length (m_vert d)) (index * verticesStride d mod 2^64).

(** src/scenegraph/mesh.cpp:64-67 *)
Definition polygonVerticesCountAt (d : Mesh) (index : Z) : res Z :=
  if (index <? Z.of_nat (length (m_vcounts d)))%Z then
    match nth_error (m_vcounts d) (Z.to_nat index) with Some x => Ok x | None => UB end
  else Abort.

(** src/scenegraph/mesh.cpp:69-74 *)
Definition position (x y z : T) : MM Z := fun d =>
  let d' := mkMesh (m_tex d) (m_pos d ++ [x; y; z]) (m_nor d) (m_texc d) (m_vert d) (m_vcounts d)
                   (m_mode d) (m_vcount d) (m_curN d) (m_curT d) in
  (Ok (positionsNb d' - 1)%Z, d').

(** src/scenegraph/mesh.cpp:76-83 *)
Definition normal (x y z : T) : MM Z := fun d =>
  if s_abs (x * x + y * y + z * z - #1) <=? ##1//100000 then
    let nor := m_nor d ++ [x; y; z] in
    let i := (Z.of_nat (length nor) / 3 - 1)%Z in
    (Ok i, mkMesh (m_tex d) (m_pos d) nor (m_texc d) (m_vert d) (m_vcounts d)
                  (m_mode d) (m_vcount d) (Some i) (m_curT d))
  else (Abort, d).

Definition out_of_range (i n : Z) : bool := (i <? 0)%Z || (n <=? i)%Z.

(** src/scenegraph/mesh.cpp:85-89 *)
Definition normalAt (i : Z) : MM unit := fun d =>
  if out_of_range i (normalsNb d) then (Throw, d)
  else (Ok tt, mkMesh (m_tex d) (m_pos d) (m_nor d) (m_texc d) (m_vert d) (m_vcounts d)
                      (m_mode d) (m_vcount d) (Some i) (m_curT d)).

(** src/scenegraph/mesh.cpp:91-96 *)
Definition texCoord (u v : T) : MM Z := fun d =>
  let tc := m_texc d ++ [u; v] in
  let i := (Z.of_nat (length tc) / 2 - 1)%Z in
  (Ok i, mkMesh (m_tex d) (m_pos d) (m_nor d) tc (m_vert d) (m_vcounts d)
                (m_mode d) (m_vcount d) (m_curN d) (Some i)).

(** src/scenegraph/mesh.cpp:98-102 *)
Definition texCoordAt (i : Z) : MM unit := fun d =>
  if out_of_range i (texCoordsNb d) then (Throw, d)
  else (Ok tt, mkMesh (m_tex d) (m_pos d) (m_nor d) (m_texc d) (m_vert d) (m_vcounts d)
                      (m_mode d) (m_vcount d) (m_curN d) (Some i)).

(** src/scenegraph/mesh.cpp:104-111 *)
Definition begin_ (mode : Mode) : MM unit := fun d =>
  match m_mode d with
  | Some _ => (Throw, d)
  | None =>
      if (m_vcount d =? 0)%Z then
        (Ok tt, mkMesh (m_tex d) (m_pos d) (m_nor d) (m_texc d) (m_vert d) (m_vcounts d)
                       (Some mode) (m_vcount d) (m_curN d) (m_curT d))
      else (Abort, d)
  end.

(** src/scenegraph/mesh.cpp:113-137 *)
Definition vertex (i : Z) : MM unit := fun d =>
  match m_mode d with
  | None => (Throw, d)
  | Some _ =>
      if out_of_range i (positionsNb d) then (Throw, d) else
      match m_curN d, (if m_tex d then m_curT d else Some 0%Z) with
      | Some n, Some t =>
          (Ok tt, mkMesh (m_tex d) (m_pos d) (m_nor d) (m_texc d)
                         (m_vert d ++ (if m_tex d then [i; n; t] else [i; n])) (m_vcounts d)
                         (m_mode d) (m_vcount d + 1) (m_curN d) (m_curT d))
      | _, _ => (Throw, d)
      end
  end.

(** src/scenegraph/mesh.cpp:139-145 *)
Definition vertexXYZ (x y z : T) : MM unit := fun d =>
  match m_mode d with
  | None => (Throw, d)
  | Some _ => (i <- position x y z ;; vertex i) d
  end.

(** Conversion to int (line 160), modulo 2^32. *)
Definition to_int (z : Z) : Z := ((z + 2^31) mod 2^32 - 2^31)%Z.
(** std::accumulate with the unsigned int 0u (line 167), modulo 2^32. *)
Definition accumulate_u (l : list Z) : Z := fold_left (fun s x => ((s + x) mod 2^32)%Z) l 0%Z.

(** src/scenegraph/mesh.cpp:147-170 *)
Definition end_ : MM unit := fun d =>
  match m_mode d with
  | None => (Throw, d)
  | Some mode =>
      let finish vc :=
        let d' := mkMesh (m_tex d) (m_pos d) (m_nor d) (m_texc d) (m_vert d) vc None 0 (m_curN d) (m_curT d) in
        if (accumulate_u vc * verticesStride d =? Z.of_nat (length (m_vert d)))%Z then (Ok tt, d') else (Abort, d') in
      if (m_vcount d =? 0)%Z then finish (m_vcounts d) else
      match mode with
      | POLYGON => finish (m_vcounts d ++ [m_vcount d])
      | _ =>
          let n := match mode with TRIANGLES => 3%Z | _ => 4%Z end in
          if (m_vcount d mod n =? 0)%Z then
            finish (m_vcounts d ++ repeat n (Z.to_nat (to_int (m_vcount d / n))))
          else (Throw, d)
      end
  end.

(** Every call that changes a mesh. *)
Inductive mesh_call :=
| CPosition (x y z : T) | CNormal (x y z : T) | CNormalAt (i : Z) | CTexCoord (u v : T) | CTexCoordAt (i : Z)
| CBegin (m : Mode) | CVertex (i : Z) | CVertexXYZ (x y z : T) | CEnd.
Definition mesh_step (c : mesh_call) (d : Mesh) : res unit * Mesh :=
  let ignore {A} (x : MM A) := (x ;; mret tt) d in
  match c with
  | CPosition x y z => ignore (position x y z)
  | CNormal x y z => ignore (normal x y z)
  | CNormalAt i => normalAt i d
  | CTexCoord u v => ignore (texCoord u v)
  | CTexCoordAt i => texCoordAt i d
  | CBegin m => begin_ m d
  | CVertex i => vertex i d
  | CVertexXYZ x y z => vertexXYZ x y z d
  | CEnd => end_ d
  end.

(** ** Mesh factory *)

(** src/scenegraph/meshfactory.cpp:14-80 *)
Definition addBoxMesh (xHE yHE zHE : T) : MM unit :=
  v0 <- position xHE yHE zHE ;;
  position xHE yHE (- zHE) ;;
  position xHE (- yHE) (- zHE) ;;
  position xHE (- yHE) zHE ;;
  position (- xHE) (- yHE) zHE ;;
  position (- xHE) yHE zHE ;;
  position (- xHE) yHE (- zHE) ;;
  position (- xHE) (- yHE) (- zHE) ;;
  begin_ QUADS ;;
  normal #1 #0 #0 ;;
  vertex v0 ;; vertex (v0 + 3)%Z ;; vertex (v0 + 2)%Z ;; vertex (v0 + 1)%Z ;;
  normal (- #1) #0 #0 ;;
  vertex (v0 + 4)%Z ;; vertex (v0 + 5)%Z ;; vertex (v0 + 6)%Z ;; vertex (v0 + 7)%Z ;;
  normal #0 #0 #1 ;;
  vertex (v0 + 5)%Z ;; vertex (v0 + 4)%Z ;; vertex (v0 + 3)%Z ;; vertex v0 ;;
  normal #0 #0 (- #1) ;;
  vertex (v0 + 7)%Z ;; vertex (v0 + 6)%Z ;; vertex (v0 + 1)%Z ;; vertex (v0 + 2)%Z ;;
  normal #0 #1 #0 ;;
  vertex (v0 + 5)%Z ;; vertex v0 ;; vertex (v0 + 1)%Z ;; vertex (v0 + 6)%Z ;;
  normal #0 (- #1) #0 ;;
  vertex (v0 + 3)%Z ;; vertex (v0 + 4)%Z ;; vertex (v0 + 7)%Z ;; vertex (v0 + 2)%Z ;;
  end_.

(** src/scenegraph/meshfactory.cpp:82-86: the outcome, and the mesh when it is Ok. *)
Definition createBoxMesh (xHE yHE zHE : T) : res Mesh :=
  match addBoxMesh xHE yHE zHE (mesh_new false) with
  | (Ok _, d) => Ok d | (Throw, _) => Throw | (Abort, _) => Abort | (UB, _) => UB
  end.

(** src/scenegraph/meshfactory.cpp:89-97 *)
Record Vert := mkVert { vp : Z; vn : Z }.
Definition vplus (v : Vert) (i : Z) : Vert := mkVert (vp v + i) (vn v + i).

(** src/scenegraph/meshfactory.cpp:99-102 *)
Definition xAddVert (v : Vert) : MM unit := normalAt (vn v) ;; vertex (vp v).

(** The integers a, a+1, ..., b-1: the values of the counter of a loop. *)
Definition zrange (a b : Z) : list Z := map (fun k => (a + Z.of_nat k)%Z) (seq 0 (Z.to_nat (b - a))).
Fixpoint mfor {A} (l : list A) (body : A -> MM unit) : MM unit :=
  match l with [] => mret tt | a :: l' => body a ;; mfor l' body end.

(** src/scenegraph/meshfactory.cpp:104-128. The variable z is [halfZ] up to the point where
    it is assigned, then [- halfZ]: it is threaded through the loop. *)
Fixpoint meridian_loop (halfZ radius x y lambda dphi : T) (nphi : Z) (l : list Z) (z : T) : MM unit :=
  match l with
  | [] => mret tt
  | iphi :: l' =>
      let phi := #iphi * dphi in
      let rxy := radius * s_sin phi in
      normal (s_sin phi * s_cos lambda) (s_sin phi * s_sin lambda) (s_cos phi) ;;
      position (x + rxy * s_cos lambda) (y + rxy * s_sin lambda) (z + radius * s_cos phi) ;;
      if (iphi mod (nphi / 2) =? 0)%Z && negb (halfZ =? #0) then
        normal (s_sin phi * s_cos lambda) (s_sin phi * s_sin lambda) (s_cos phi) ;;
        position (x + rxy * s_cos lambda) (y + rxy * s_sin lambda) (- halfZ + radius * s_cos phi) ;;
        meridian_loop halfZ radius x y lambda dphi nphi l' (- halfZ)
      else meridian_loop halfZ radius x y lambda dphi nphi l' z
  end.
Definition xAddMeridian (halfZ radius : T) (nb : Z) (x y lambda : T) : MM Vert := fun d =>
  let vert := mkVert (positionsNb d) (normalsNb d) in
  let nphi := (2 * (nb + 1))%Z in
  let dphi := ##314//100 / #nphi in
  (meridian_loop halfZ radius x y lambda dphi nphi (zrange 1 nphi) halfZ ;; mret vert) d.

(** src/scenegraph/meshfactory.cpp:130-137 (x, y and ratio are never used) *)
Record Sector := mkSector { s_north : Vert; s_south : Vert; s_meridians : list Vert }.

(** src/scenegraph/meshfactory.cpp:139-143 *)
Definition xSectorNbAdditionalVertices (halfZ radius : T) (nb : Z) : MM Z :=
  if radius =? #0 then mabort
  else mret (2 * nb + (if (halfZ =? #0)%sc then 1 else 2))%Z.

(** src/scenegraph/meshfactory.cpp:162-181: the faces between two meridians. *)
Definition strip (north south ppos pos : Vert) (n : Z) : MM unit :=
  begin_ TRIANGLES ;; xAddVert north ;; xAddVert ppos ;; xAddVert pos ;; end_ ;;
  begin_ QUADS ;;
  mfor (zrange 0 (n - 1)) (fun i =>
    xAddVert (vplus pos i) ;; xAddVert (vplus ppos i) ;;
    xAddVert (vplus ppos (1 + i)) ;; xAddVert (vplus pos (1 + i))) ;;
  end_ ;;
  begin_ TRIANGLES ;; xAddVert (vplus pos (n - 1)) ;; xAddVert (vplus ppos (n - 1)) ;; xAddVert south ;; end_.

(** src/scenegraph/meshfactory.cpp:156-184: the loop over the azimuths; [prev] is ppos. *)
Fixpoint sector_loop (halfZ radius : T) (nb n : Z) (x y start step : T) (north south : Vert)
  (js : list Z) (prev : option Vert) : MM (list Vert) :=
  match js with
  | [] => mret []
  | j :: js' =>
      let lambda := start + #j * step in
      pos <- xAddMeridian halfZ radius nb x y lambda ;;
      (fun d => massert (n =? positionsNb d - vp pos)%Z d) ;;
      (fun d => massert (n =? normalsNb d - vn pos)%Z d) ;;
      match prev with
      | Some ppos => strip north south ppos pos n
      | None => mret tt
      end ;;
      rest <- sector_loop halfZ radius nb n x y start step north south js' (Some pos) ;;
      mret (pos :: rest)
  end.

(** src/scenegraph/meshfactory.cpp:145-186 *)
Definition xAddSector (halfZ radius : T) (nb : Z) (x y start step : T) (steps : Z) (northNormal southNormal : Z) : MM Sector :=
  n <- xSectorNbAdditionalVertices halfZ radius nb ;;
  let z := halfZ + radius in
  np <- position x y z ;;
  sp <- position x y (- z) ;;
  let north := mkVert np northNormal in
  let south := mkVert sp southNormal in
  ms <- sector_loop halfZ radius nb n x y start step north south (zrange 0 steps) None ;;
  mret (mkSector north south ms).

(** std::vector::back and front: undefined behaviour on an empty vector. *)
Definition vback (l : list Vert) : MM Vert := match l with [] => mub | a :: l' => mret (last l' a) end.
Definition vfront (l : list Vert) : MM Vert := match l with [] => mub | a :: _ => mret a end.

(** src/scenegraph/meshfactory.cpp:245-265: the faces between the sector [cur] and the
    following one. *)
Definition junction (n : Z) (cur nxt : Sector) : MM unit :=
  prev <- vback (s_meridians cur) ;;
  next <- vfront (s_meridians nxt) ;;
  begin_ QUADS ;;
  xAddVert (s_north nxt) ;; xAddVert (s_north cur) ;; xAddVert prev ;; xAddVert next ;;
  mfor (zrange 0 (n - 1)) (fun j =>
    xAddVert (vplus next j) ;; xAddVert (vplus prev j) ;;
    xAddVert (vplus prev (1 + j)) ;; xAddVert (vplus next (1 + j))) ;;
  xAddVert (vplus next (n - 1)) ;; xAddVert (vplus prev (n - 1)) ;;
  xAddVert (s_south cur) ;; xAddVert (s_south nxt) ;;
  end_.

(** The sectors paired with the following one, cyclically (lines 245-246). *)
Definition with_next {A} (l : list A) : list (A * A) :=
  match l with [] => [] | a :: l' => combine l (l' ++ [a]) end.

(** src/scenegraph/meshfactory.cpp:244-277 *)
Definition close_sectors (n : Z) (sectors : list Sector) : MM unit :=
  mfor (with_next sectors) (fun p => junction n (fst p) (snd p)) ;;
  if (3 <=? length sectors)%nat then
    begin_ POLYGON ;; mfor sectors (fun s => xAddVert (s_north s)) ;; end_ ;;
    begin_ POLYGON ;; mfor (rev sectors) (fun s => xAddVert (s_south s)) ;; end_
  else mret tt.

(** src/scenegraph/meshfactory.cpp:190-278. [nb] is the int pNbArcVertices; the int
    divisions nbSteps / 2 and nbSteps / 4 truncate towards zero. *)
Definition addRoundedBoxMesh (ex ey ez radius : T) (nb : Z) : MM unit :=
  massert (ex >=? #0) ;; massert (ey >=? #0) ;; massert (ez >=? #0) ;;
  if radius =? #0 then addBoxMesh ex ey ez else
  massert (radius >? #0) ;;
  n <- xSectorNbAdditionalVertices ez radius nb ;;
  northNormal <- normal #0 #0 #1 ;;
  southNormal <- normal #0 #0 (- #1) ;;
  let nbSteps := (4 * (nb + 1))%Z in
  let step := #2 * s_pi / #nbSteps in
  let sector x y start steps := xAddSector ez radius nb x y start step steps northNormal southNormal in
  sectors <-
    (if (ex =? #0) && (ey =? #0) then
       s0 <- sector ex ey #0 nbSteps ;; mret [s0]
     else if ex =? #0 then
       s0 <- sector ex ey #0 (Z.quot nbSteps 2 + 1)%Z ;;
       s1 <- sector ex (- ey) s_pi (Z.quot nbSteps 2 + 1)%Z ;; mret [s0; s1]
     else if ey =? #0 then
       s0 <- sector ex ey (- s_pi / #2) (Z.quot nbSteps 2 + 1)%Z ;;
       s1 <- sector (- ex) ey (s_pi / #2) (Z.quot nbSteps 2 + 1)%Z ;; mret [s0; s1]
     else
       s0 <- sector ex ey #0 (Z.quot nbSteps 4 + 1)%Z ;;
       s1 <- sector (- ex) ey (s_pi / #2) (Z.quot nbSteps 4 + 1)%Z ;;
       s2 <- sector (- ex) (- ey) s_pi (Z.quot nbSteps 4 + 1)%Z ;;
       s3 <- sector ex (- ey) (#3 * s_pi / #2) (Z.quot nbSteps 4 + 1)%Z ;; mret [s0; s1; s2; s3]) ;;
  close_sectors n sectors.

(** src/scenegraph/meshfactory.cpp:280-286 *)
Definition createRoundedBoxMesh (ex ey ez radius : T) (nb : Z) : res Mesh :=
  match addRoundedBoxMesh ex ey ez radius nb (mesh_new false) with
  | (Ok _, d) => Ok d | (Throw, _) => Throw | (Abort, _) => Abort | (UB, _) => UB
  end.

End Model.
Arguments Mesh : clear implicits.
Arguments MM : clear implicits.
Arguments mesh_call : clear implicits.
