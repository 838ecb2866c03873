(** Saving and loading layers: /repo/voxblox/include/voxblox/core/layer_inl.h and
    io/layer_io_inl.h. Definitions only. *)
From Coq Require Import String Ascii ZArith List Bool.
From Verif Require Import F32 Types Index Voxel Serialize Assoc Layer Proto.
Import ListNotations.
Open Scope Z_scope.

Definition bytes_of_string (s : string) : bytes :=
  map (fun c => Z.of_nat (nat_of_ascii c)) (list_ascii_of_string s).
Definition type_bytes (k : vkind) : bytes := bytes_of_string (voxel_type k).
Fixpoint bytes_eqb (a b : bytes) : bool :=
  match a, b with
  | [], [] => true
  | x :: a', y :: b' => (x =? y) && bytes_eqb a' b'
  | _, _ => false
  end.

(** block_inl.h:91-109 [Block::getProto]; float members widen to double,
    [voxels_per_side_] narrows to int32 *)
Definition block_getProto {k} (b : Block k) : BlockProto :=
  MkBP (wrap32 (b_vps b)) (f64_of_f32 (b_size b))
    (f64_of_f32 (vx (b_origin b))) (f64_of_f32 (vy (b_origin b))) (f64_of_f32 (vz (b_origin b)))
    (b_has_data b) (serializeToIntegers k (b_voxels b)).
(** layer_inl.h:43-52 [Layer::getProto] *)
Definition layer_getProto {k} (l : Layer k) : LayerProto :=
  MkLP (f64_of_f32 (l_size l)) (u32 (l_vps l)) (type_bytes k).

(** block_inl.h:74-88 [Block(proto)] *)
Definition block_of_proto (k : vkind) (p : BlockProto) : res (Block k) :=
  let b := new_block (u64 (bp_vps p)) (f32_of_f64 (bp_voxel_size p))
             (V3 (f32_of_f64 (bp_x p)) (f32_of_f64 (bp_y p)) (f32_of_f64 (bp_z p))) in
  rbind (deserializeFromIntegers k (num_voxels (u64 (bp_vps p))) (bp_data p))
    (fun vs => Ok (set_voxels vs (set_has_data (bp_has_data p) b))).

(** [std::numeric_limits<float>::epsilon()] = 2^-23 as double *)
Definition d_eps32 : f64 := f64_lit 1 (-23).
(** layer_inl.h:237-260 [isCompatible(LayerProto)] *)
Definition isCompatible_layer {k} (l : Layer k) (p : LayerProto) : bool :=
  dlt (dabs (dsub (lp_voxel_size p) (f64_of_f32 (l_size l)))) d_eps32
  && (lp_vps p =? l_vps l) && bytes_eqb (type_bytes k) (lp_type p).
(** layer_inl.h:263-270 [isCompatible(BlockProto)] *)
Definition isCompatible_block {k} (l : Layer k) (p : BlockProto) : bool :=
  dlt (dabs (dsub (bp_voxel_size p) (f64_of_f32 (l_size l)))) d_eps32
  && (bp_vps p =? wrap32 (l_vps l)).

(** layer.h:54 *)
Inductive strategy : Type := kProhibit | kReplace | kDiscard | kMerge.

(** mark the block at [i] as updated (layer_inl.h:227) *)
Definition mark_updated {k} (i : idx3) (m : amap (Block k)) : amap (Block k) :=
  match alookup i m with Some b => aset i (set_updated upd_all b) m | None => m end.

(** layer_inl.h:192-234 [addBlockFromProto] *)
Definition addBlockFromProto {k} (l : Layer k) (p : BlockProto) (st : strategy)
  : res (bool * Layer k) :=
  if isCompatible_block l p then
    rbind (block_of_proto k p) (fun b =>
    rbind (of_opt (getGridIndexFromOriginPoint (b_origin b) (inv_of (l_block_size l)))) (fun i =>
    rbind
      (match st with
       | kProhibit => match l_get l i with
                      | Some _ => Abort
                      | None => Ok (aset i b (l_blocks l))
                      end
       | kReplace => Ok (aset i b (l_blocks l))
       | kDiscard => Ok (ainsert i b (l_blocks l))
       | kMerge => match l_get l i with
                   | None => Ok (aset i b (l_blocks l))
                   | Some old => rbind (mergeBlock old b) (fun nb => Ok (aset i nb (l_blocks l)))
                   end
       end)
      (fun m => Ok (true, with_blocks l (mark_updated i m)))))
  else Ok (false, l).

(** ** writing *)
Definition idx_in (i : idx3) (l : list idx3) : bool := existsb (idx_eqb i) l.
(** layer_inl.h:165-189 [saveBlocksToStream] *)
Definition selected {k} (all : bool) (inc : list idx3) (m : amap (Block k)) : amap (Block k) :=
  filter (fun kv => all || idx_in (fst kv) inc) m.
Definition saveBlocksToStream {k} (all : bool) (inc : list idx3) (m : amap (Block k)) : bytes :=
  flat_map (fun kv => writeProtoMsg (bp_fields (block_getProto (snd kv)))) (selected all inc m).
(** layer_inl.h:115-131: number of blocks to write *)
Definition num_blocks_to_write {k} (all : bool) (inc : list idx3) (m : amap (Block k)) : nat :=
  if (all && match m with [] => false | _ => true end) || match inc with [] => false | _ => true end
  then length (selected all inc m) else 0%nat.
(** layer_inl.h:89-162 [saveSubsetToFile]: the file contents afterwards.
    [clear_file] truncates, otherwise the layer is appended. Failure to open the
    file is not modelled; the CHECKs at 132-137 abort. *)
Definition saveSubsetToFile {k} (l : Layer k) (old : bytes) (inc : list idx3)
  (all clear_file : bool) : res bytes :=
  let n := num_blocks_to_write all inc (l_blocks l) in
  let checks := if all then Nat.eqb n (length (l_blocks l))
                else Nat.leb n (length (l_blocks l)) && Nat.leb n (length inc) in
  if checks then
    Ok ((if clear_file then [] else old)
        ++ writeProtoMsgCount (1 + Z.of_nat n)
        ++ writeProtoMsg (lp_fields (layer_getProto l))
        ++ saveBlocksToStream all inc (l_blocks l))
  else Abort.
(** layer_inl.h:82-87 [saveToFile] *)
Definition saveToFile {k} (l : Layer k) (old : bytes) (clear_file : bool) : res bytes :=
  saveSubsetToFile l old [] true clear_file.

(** ** reading *)
(** layer_io_inl.h:103-128 [LoadBlocksFromStream] *)
Fixpoint loadBlocks {k} (n : nat) (st : strategy) (rest : bytes) (l : Layer k)
  : res (bool * bytes * Layer k) :=
  match n with
  | O => Ok (true, rest, l)
  | S n' =>
      match readProtoMsg rest with
      | None => Ok (false, rest, l)
      | Some (fs, rest', _) =>
          rbind (addBlockFromProto l (bp_of_fields fs) st) (fun ok_l =>
            let (ok, l') := (ok_l : bool * Layer k) in
            if ok then loadBlocks n' st rest' l' else Ok (false, rest', l'))
      end
  end.
(** layer_io_inl.h:71-79: read and drop the blocks of an incompatible layer;
    yields the eof flag after the last message read ([eof0] if there is none) *)
Fixpoint skipBlocks (n : nat) (rest : bytes) (eof0 : bool) : option (bytes * bool) :=
  match n with
  | O => Some (rest, eof0)
  | S n' => match readProtoMsg rest with
            | None => None
            | Some (_, rest', eof) => skipBlocks n' rest' eof
            end
  end.

(** layer_io_inl.h:36-90, the do-while loop of [LoadBlocksFromFile]. [None] means
    out of fuel. *)
Fixpoint loadLoop {k} (fuel : nat) (st : strategy) (multi : bool) (rest : bytes) (l : Layer k)
  : option (res (bool * Layer k)) :=
  match fuel with
  | O => None
  | S fuel' =>
      match readProtoMsgCount rest with
      | None => Some (Ok (false, l))
      | Some (num, rest1) =>
          if num =? 0 then Some (Ok (false, l))
          else
            match readProtoMsg rest1 with
            | None => Some (Ok (false, l))
            | Some (fs, rest2, eof) =>
                if isCompatible_layer l (lp_of_fields fs) then
                  Some (rbind (loadBlocks (Z.to_nat (num - 1)) st rest2 l) (fun r =>
                    let '(ok, _, l') := (r : bool * bytes * Layer k) in Ok (ok, l')))
                else if negb multi then Some (Ok (false, l))
                else
                  match skipBlocks (Z.to_nat (num - 1)) rest2 eof with
                  | None => Some (Ok (false, l))
                  | Some (rest3, eof') =>
                      if eof' then Some (Ok (false, l))
                      else loadLoop fuel' st multi rest3 l
                  end
            end
      end
  end.
(** layer_io_inl.h:14-91 [LoadBlocksFromFile] *)
Definition LoadBlocksFromFile {k} (file : bytes) (st : strategy) (multi : bool) (l : Layer k) :=
  loadLoop (S (length file)) st multi file l.

(** layer_inl.h:25-40 [Layer(LayerProto)] *)
Definition layer_of_proto (k : vkind) (p : LayerProto) : res (Layer k) :=
  let s := f32_of_f64 (lp_voxel_size p) in
  if bytes_eqb (type_bytes k) (lp_type p) && dlt d0 (lp_voxel_size p)
     && flt f0 (block_size_of (lp_vps p) s) && (0 <? lp_vps p)
  then Ok (MkLayer s (lp_vps p) []) else Abort.

(** layer_io_inl.h:150-215, the do-while loop of [LoadLayer]; the second
    component is the layer pointer afterwards *)
Fixpoint loadLayerLoop (k : vkind) (fuel : nat) (multi : bool) (rest : bytes)
  (cur : option (Layer k)) : option (res (bool * option (Layer k))) :=
  match fuel with
  | O => None
  | S fuel' =>
      match readProtoMsgCount rest with
      | None => Some (Ok (false, cur))
      | Some (num, rest1) =>
          if num =? 0 then Some (Ok (false, cur))
          else
            match readProtoMsg rest1 with
            | None => Some (Ok (false, cur))
            | Some (fs, rest2, eof) =>
                let p := lp_of_fields fs in
                if dle (lp_voxel_size p) d0 || (lp_vps p =? 0) then Some (Ok (false, cur))
                else if bytes_eqb (type_bytes k) (lp_type p) then
                  Some (rbind (layer_of_proto k p) (fun l0 =>
                    rbind (loadBlocks (Z.to_nat (num - 1)) kProhibit rest2 l0) (fun r =>
                      let '(ok, _, l') := (r : bool * bytes * Layer k) in Ok (ok, Some l'))))
                else if negb multi then Some (Ok (false, cur))
                else
                  match skipBlocks (Z.to_nat (num - 1)) rest2 eof with
                  | None => Some (Ok (false, cur))
                  | Some (rest3, eof') =>
                      if eof' then Some (Ok (false, cur))
                      else loadLayerLoop k fuel' multi rest3 cur
                  end
            end
      end
  end.
(** layer_io_inl.h:130-216 [LoadLayer] *)
Definition LoadLayer (k : vkind) (file : bytes) (multi : bool) :=
  loadLayerLoop k (S (length file)) multi file None.
