(** PLY files: [outputMeshAsPly], [outputMeshLayerAsPly] and the [PlyWriter] class.
    A file is modelled as its lines, a line as its whitespace-separated words.
    Definitions only. *)
From Coq Require Import String ZArith List Bool.
From Flocq Require Import IEEE754.Binary IEEE754.Bits.
From Verif Require Import F32 Types Voxel Layer Marching MeshInt.
Import ListNotations.
Open Scope Z_scope.

(** a word of a text file: an identifier, an integer in decimal digits, or a
    decimal number m * 10^e *)
Inductive word : Type := Name (s : string) | Num (n : Z) | Dec (m e : Z).
Definition line := list word.
Definition file := list line.

(** quotient rounded to the nearest integer, ties to even *)
Definition quot_even (n d : Z) : Z :=
  let q := n / d in
  match Z.compare (2 * (n mod d)) d with
  | Lt => q
  | Gt => q + 1
  | Eq => if Z.even q then q else q + 1
  end.
(** m * 2^e in units of 10^d *)
Definition in_units (m e d : Z) : Z :=
  quot_even (m * 2 ^ Z.max e 0 * 10 ^ Z.max (- d) 0) (2 ^ Z.max (- e) 0 * 10 ^ Z.max d 0).
Definition decimal_exponents : list Z := map (fun n => Z.of_nat n - 50) (seq 0 84).
(** [operator<<] of std::ostream for a float with its default format: at most six
    significant digits, correctly rounded (glibc prints the nearest such decimal).
    The word stands for the number printed; how it is laid out (trailing zeros,
    scientific notation) is not modelled. *)
Definition print_float (x : f32) : word :=
  match x with
  | B754_zero _ _ _ => Dec 0 0
  | B754_infinity _ _ s => Name (if s then "-inf" else "inf")
  | B754_nan _ _ s _ _ => Name (if s then "-nan" else "nan")
  | B754_finite _ _ s m e _ =>
      match find (fun d => in_units (Zpos m) e d <? 1000000) decimal_exponents with
      | Some d => Dec ((if s then -1 else 1) * in_units (Zpos m) e d) d
      | None => Dec 0 0
      end
  end.
(** mesh_ply.cc:97,101: a point, three words *)
Definition print_point (p : pt3) : line := [print_float (vx p); print_float (vy p); print_float (vz p)].
(** mesh_ply.cc:103-110: a colour, four words *)
Definition print_color (c : Color) : line := [Num (cr c); Num (cg c); Num (cb c); Num (ca c)].

Definition words (ss : list string) : line := map Name ss.
(** mesh_ply.cc:70-93 the header *)
Definition ply_header (m : mesh) : file :=
  [words ["ply"]; words ["format"; "ascii"; "1.0"];
   [Name "element"; Name "vertex"; Num (Z.of_nat (length (m_vertices m)))];
   words ["property"; "float"; "x"]; words ["property"; "float"; "y"]; words ["property"; "float"; "z"]]%string ++
  (if nonempty (m_normals m)
   then [words ["property"; "float"; "normal_x"]; words ["property"; "float"; "normal_y"];
         words ["property"; "float"; "normal_z"]]%string
   else []) ++
  (if nonempty (m_colors m)
   then [words ["property"; "uchar"; "red"]; words ["property"; "uchar"; "green"];
         words ["property"; "uchar"; "blue"]; words ["property"; "uchar"; "alpha"]]%string
   else []) ++
  (if nonempty (m_indices m)
   then [[Name "element"; Name "face"; Num (Z.of_nat (length (m_indices m)) / 3)];
         words ["property"; "list"; "uchar"; "int"; "vertex_indices"]]%string
   else []) ++
  [words ["end_header"]]%string.
(** mesh_ply.cc:94-115 one line per vertex; [normals[i]] and [colors[i]] are not
    checked *)
Fixpoint vertex_lines (m : mesh) (i : nat) (vs : list pt3) : res file :=
  match vs with
  | [] => Ok []
  | v :: vs' =>
      rbind (if nonempty (m_normals m)
             then match nth_error (m_normals m) i with Some n => Ok (print_point n) | None => UB end
             else Ok []) (fun ns =>
      rbind (if nonempty (m_colors m)
             then match nth_error (m_colors m) i with Some c => Ok (print_color c) | None => UB end
             else Ok []) (fun cs =>
      rbind (vertex_lines m (S i) vs') (fun rest => Ok ((print_point v ++ ns ++ cs) :: rest))))
  end.
(** mesh_ply.cc:116-126 one line per three indices; [at] throws beyond the end,
    nothing catches it *)
Fixpoint face_lines (is : list Z) : res file :=
  match is with
  | [] => Ok []
  | i :: j :: k :: is' => rbind (face_lines is') (fun rest => Ok ([Num 3; Num i; Num j; Num k] :: rest))
  | _ => Abort
  end.
(** mesh_ply.cc:63-128 [outputMeshAsPly]; [opens]: the file can be opened. None:
    returns false. Errors of the stream after opening (disk full) are not looked at
    by the code and not modelled. *)
Definition outputMeshAsPly (opens : bool) (m : mesh) : res (option file) :=
  if negb opens then Ok None
  else rbind (vertex_lines m 0 (m_vertices m)) (fun vs =>
       rbind (face_lines (m_indices m)) (fun fs => Ok (Some (ply_header m ++ vs ++ fs)))).
(** the default threshold 1e-10 as float (mesh_layer.h:262-263, mesh_ply.h:42) *)
Definition default_threshold : f32 := fbits 0x2edbe6ff.
(** mesh_ply.cc:27-39 [convertMeshLayerToMesh], mesh_layer.h:260-275 [getConnectedMesh] *)
Definition convertMeshLayerToMesh (connected : bool) (threshold : f32) (mm : mesh_map) (out : mesh) : res (bool * mesh) :=
  rbind (if connected then createConnectedMesh (map snd mm) threshold out else getMesh mm out) (fun m =>
    Ok (nonempty (m_vertices m), m)).
(** mesh_ply.cc:47-61 [outputMeshLayerAsPly] *)
Definition outputMeshLayerAsPly (opens connected : bool) (mm : mesh_map) : res (option file) :=
  rbind (convertMeshLayerToMesh connected default_threshold mm (new_mesh (V3 f0 f0 f0))) (fun bm =>
    if fst bm then outputMeshAsPly opens (snd bm) else Ok None).

(** ** ply_writer.h:17-111 [PlyWriter] *)
Record writer : Type := MkWriter {
  w_open : bool; w_header : bool; w_params : bool; w_total : Z; w_written : Z; w_color : bool; w_file : file }.
(** ply_writer.h:21-27 *)
Definition new_writer (opens : bool) : writer := MkWriter opens false false 0 0 false [].
(** ply_writer.h:31-35 [addVerticesWithProperties] *)
Definition addVertices (n : Z) (color : bool) (w : writer) : writer :=
  MkWriter (w_open w) (w_header w) true n (w_written w) color (w_file w).
(** ply_writer.h:37-72 [writeHeader] *)
Definition writeHeader (w : writer) : bool * writer :=
  if negb (w_open w) then (false, w)
  else if negb (w_params w) then (false, w)
  else if w_header w then (false, w)
  else (true, MkWriter (w_open w) true (w_params w) (w_total w) (w_written w) (w_color w)
    (w_file w ++
     [words ["ply"]; words ["format"; "ascii"; "1.0"]; [Name "element"; Name "vertex"; Num (w_total w)];
      words ["property"; "float"; "x"]; words ["property"; "float"; "y"]; words ["property"; "float"; "z"]]%string ++
     (if w_color w
      then [words ["property"; "uchar"; "red"]; words ["property"; "uchar"; "green"];
            words ["property"; "uchar"; "blue"]]%string
      else []) ++ [words ["end_header"]]%string)).
Definition append_line (l : line) (w : writer) : writer :=
  MkWriter (w_open w) (w_header w) (w_params w) (w_total w) (w_written w) (w_color w) (w_file w ++ [l]).
(** ply_writer.h:74-101 the two [writeVertex]; [vertices_written_] is compared but
    nothing ever increases it *)
Definition writeVertex (p : pt3) (rgb : option Color) (w : writer) : bool * writer :=
  let '(ok, w1) := if w_header w then (true, w) else writeHeader w in
  if negb ok then (false, w1)
  else if w_total w1 <=? w_written w1 then (false, w1)
  else match rgb with
       | None => if w_color w1 then (false, w1) else (true, append_line (print_point p) w1)
       | Some c => if w_color w1 then (true, append_line (print_point p ++ [Num (cr c); Num (cg c); Num (cb c)]) w1)
                   else (false, w1)
       end.
(** a sequence of calls, with what they returned *)
Inductive wcall : Type := CHeader | CVertex (p : pt3) (rgb : option Color).
Definition wcall_do (c : wcall) (w : writer) : bool * writer :=
  match c with CHeader => writeHeader w | CVertex p rgb => writeVertex p rgb w end.
Fixpoint wrun (cs : list wcall) (w : writer) : list bool * writer :=
  match cs with
  | [] => ([], w)
  | c :: cs' => let '(b, w1) := wcall_do c w in let '(bs, w2) := wrun cs' w1 in (b :: bs, w2)
  end.
