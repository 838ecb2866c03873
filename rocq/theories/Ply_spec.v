(** What a PLY file says: a reader for the ascii format, independent of the writers.
    For the format see http://paulbourke.net/dataformats/ply/ *)
From Coq Require Import String ZArith List Bool Reals.
From Flocq Require Import Core.
From Verif Require Import F32 Types Voxel Marching MeshInt Mesh_spec Ply.
Import ListNotations.
Open Scope Z_scope.

Inductive prop : Type := Scalar (ty name : string) | Listed (count_ty ty name : string).
Record element : Type := MkElement { e_name : string; e_count : Z; e_props : list prop }.
(** a value of a property: one word, or several for a list property *)
Definition cell := (string * list word)%type.
Definition row := list cell.

(** the words that are values of a type *)
Definition of_type (ty : string) (w : word) : bool :=
  match w with
  | Name _ => false
  | Dec _ _ => String.eqb ty "float"
  | Num n => if String.eqb ty "uchar" then (0 <=? n) && (n <=? 255)
             else if String.eqb ty "int" then (-2147483648 <=? n) && (n <=? 2147483647)
             else String.eqb ty "float"
  end.

(** the header after the format line: elements, each followed by its properties;
    [cur] is the element under construction *)
Fixpoint read_elements (cur : option element) (f : file) : option (list element * file) :=
  let close := match cur with Some e => [e] | None => [] end in
  match f with
  | [] => None
  | l :: f' =>
      match l with
      | [Name s] => if String.eqb s "end_header" then Some (close, f') else None
      | [Name s; Name a; Num c] =>
          if String.eqb s "element" && (0 <=? c) then
            match read_elements (Some (MkElement a c [])) f' with
            | Some (es, body) => Some (close ++ es, body)
            | None => None
            end
          else None
      | [Name s; Name ty; Name n] =>
          match cur with
          | Some e => if String.eqb s "property"
                      then read_elements (Some (MkElement (e_name e) (e_count e) (e_props e ++ [Scalar ty n]))) f'
                      else None
          | None => None
          end
      | [Name s; Name li; Name cty; Name ty; Name n] =>
          match cur with
          | Some e => if String.eqb s "property" && String.eqb li "list"
                      then read_elements (Some (MkElement (e_name e) (e_count e) (e_props e ++ [Listed cty ty n]))) f'
                      else None
          | None => None
          end
      | _ => None
      end
  end.

(** one line of the body: a value for every property and nothing else *)
Fixpoint read_row (ps : list prop) (l : line) : option row :=
  match ps with
  | [] => match l with [] => Some [] | _ => None end
  | Scalar ty n :: ps' =>
      match l with
      | w :: l' => if of_type ty w
                   then match read_row ps' l' with Some r => Some ((n, [w]) :: r) | None => None end
                   else None
      | [] => None
      end
  | Listed cty ty n :: ps' =>
      match l with
      | Num c :: l' =>
          let k := Z.to_nat c in
          if of_type cty (Num c) && (Nat.leb k (length l')) && forallb (of_type ty) (firstn k l')
          then match read_row ps' (skipn k l') with Some r => Some ((n, firstn k l') :: r) | None => None end
          else None
      | _ => None
      end
  end.
Fixpoint read_rows (ps : list prop) (n : nat) (f : file) : option (list row * file) :=
  match n with
  | O => Some ([], f)
  | S n' =>
      match f with
      | l :: f' =>
          match read_row ps l, read_rows ps n' f' with
          | Some r, Some (rs, rest) => Some (r :: rs, rest)
          | _, _ => None
          end
      | [] => None
      end
  end.
Fixpoint read_body (es : list element) (f : file) : option (list (string * list row)) :=
  match es with
  | [] => match f with [] => Some [] | _ => None end
  | e :: es' =>
      match read_rows (e_props e) (Z.to_nat (e_count e)) f with
      | Some (rs, f') => match read_body es' f' with Some t => Some ((e_name e, rs) :: t) | None => None end
      | None => None
      end
  end.
(** the contents of a file: for every element of the header its rows. None: not a
    valid file (a count that is not met, a line of the wrong shape, lines left over) *)
Definition read_ply (f : file) : option (list (string * list row)) :=
  match f with
  | [Name a] :: [Name b; Name c; Name d] :: f' =>
      if String.eqb a "ply" && String.eqb b "format" && String.eqb c "ascii" && String.eqb d "1.0"
      then match read_elements None f' with Some (es, body) => read_body es body | None => None end
      else None
  | _ => None
  end.
Definition field (n : string) (r : row) : option (list word) :=
  option_map snd (find (fun c => String.eqb (fst c) n) r).
Definition rows_of (n : string) (t : list (string * list row)) : list row :=
  match find (fun e => String.eqb (fst e) n) t with Some e => snd e | None => [] end.

(** ** What the file of a mesh says *)
(** the number a word shows is within 1/199999 of a float (six digits) *)
Definition shows (x : f32) (ws : option (list word)) : Prop :=
  exists m e, ws = Some [Dec m e] /\
    (Rabs (IZR m * powerRZ 10 e - FR x) <= Rabs (FR x) / 199999)%R.
Definition shows_point (p : pt3) (x y z : string) (r : row) : Prop :=
  shows (vx p) (field x r) /\ shows (vy p) (field y r) /\ shows (vz p) (field z r).
Definition shows_color (c : Color) (r : row) : Prop :=
  field "red" r = Some [Num (cr c)] /\ field "green" r = Some [Num (cg c)] /\
  field "blue" r = Some [Num (cb c)].
(** every vertex with its normal and colour, every triangle, in order, nothing else *)
Definition depicts (f : file) (m : mesh) : Prop :=
  exists vs fs, read_ply f = Some (("vertex"%string, vs) :: fs) /\
    length vs = length (m_vertices m) /\
    (forall i p r, nth_error (m_vertices m) i = Some p -> nth_error vs i = Some r ->
       shows_point p "x" "y" "z" r /\
       (forall n, nth_error (m_normals m) i = Some n -> shows_point n "normal_x" "normal_y" "normal_z" r) /\
       (forall c, nth_error (m_colors m) i = Some c -> shows_color c r /\ field "alpha" r = Some [Num (ca c)])) /\
    fs = (match m_indices m with
          | [] => []
          | _ => [("face"%string,
                   map (fun t => let '(i, j, k) := t in [("vertex_indices"%string, [Num i; Num j; Num k])])
                     (triples (m_indices m)))]
          end).
Definition finite_point (p : pt3) : Prop := all3 (fun x => ffin x = true) p.
(** a mesh whose arrays fit together *)
Definition printable (m : mesh) : Prop :=
  (m_normals m = [] \/ length (m_normals m) = length (m_vertices m)) /\
  (m_colors m = [] \/ length (m_colors m) = length (m_vertices m)) /\
  (exists q, length (m_indices m) = (3 * q)%nat) /\
  Forall (fun i => 0 <= i < Z.of_nat (length (m_vertices m))) (m_indices m) /\
  Z.of_nat (length (m_vertices m)) <= 2147483648 /\
  Forall finite_point (m_vertices m) /\ Forall finite_point (m_normals m) /\ Forall color_ok (m_colors m).
(** vertices accepted by a writer, in order *)
Fixpoint accepted (cs : list wcall) (bs : list bool) : list (pt3 * option Color) :=
  match cs, bs with
  | CVertex p c :: cs', true :: bs' => (p, c) :: accepted cs' bs'
  | _ :: cs', _ :: bs' => accepted cs' bs'
  | _, _ => []
  end.
(** a vertex with numbers for coordinates *)
Definition good_vertex (v : pt3 * option Color) : Prop :=
  finite_point (fst v) /\ forall c, snd v = Some c -> color_ok c.
Definition finite_mesh (m : mesh) : Prop :=
  Forall finite_point (m_vertices m) /\ Forall finite_point (m_normals m) /\ Forall color_ok (m_colors m).
