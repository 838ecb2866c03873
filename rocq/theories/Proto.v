(** Protobuf wire format of the two messages in /repo/voxblox/proto and the
    framed stream of /repo/voxblox/src/utils/protobuf_utils.cc. Definitions only.

    The protobuf library itself is third party code; this is its documented wire
    format (and the documented behaviour of [CodedInputStream]) restricted to
    scalar fields. A file is the list of its bytes. *)
From Coq Require Import ZArith List Bool.
From Verif Require Import F32 Types.
Import ListNotations.
Open Scope Z_scope.

Definition bytes := list Z.

(** ** varints *)
Fixpoint enc_var (n : nat) (z : Z) : bytes :=
  match n with
  | O => []
  | S n' => if z <? 128 then [z] else (z mod 128 + 128) :: enc_var n' (z / 128)
  end.
(** a 64-bit varint takes at most 10 bytes *)
Definition enc_varint (z : Z) : bytes := enc_var 10 z.
Fixpoint dec_var (n : nat) (bs : bytes) : option (Z * bytes) :=
  match n, bs with
  | S n', b :: r =>
      if b <? 128 then Some (b, r)
      else match dec_var n' r with
           | Some (v, r') => Some (b - 128 + 128 * v, r')
           | None => None
           end
  | _, _ => None
  end.
(** [ReadVarint64] / [ReadVarint32] (excess high bits are discarded) *)
Definition dec_varint64 (bs : bytes) : option (Z * bytes) :=
  match dec_var 10 bs with Some (v, r) => Some (v mod 2 ^ 64, r) | None => None end.
Definition dec_varint32 (bs : bytes) : option (Z * bytes) :=
  match dec_var 10 bs with Some (v, r) => Some (v mod 2 ^ 32, r) | None => None end.

(** ** little endian 64-bit *)
Fixpoint enc_le (n : nat) (z : Z) : bytes :=
  match n with O => [] | S n' => z mod 256 :: enc_le n' (z / 256) end.
Fixpoint dec_le (n : nat) (bs : bytes) : option (Z * bytes) :=
  match n with
  | O => Some (0, bs)
  | S n' => match bs with
            | b :: r => match dec_le n' r with
                        | Some (v, r') => Some (b + 256 * v, r')
                        | None => None
                        end
            | [] => None
            end
  end.

(** ** fields *)
Inductive field : Type :=
| FVar (num v : Z)
| FFix64 (num v : Z)
| FLen (num : Z) (b : bytes)
| FFix32 (num v : Z).

Definition enc_field (f : field) : bytes :=
  match f with
  | FVar n v => enc_varint (8 * n) ++ enc_varint v
  | FFix64 n v => enc_varint (8 * n + 1) ++ enc_le 8 v
  | FLen n b => enc_varint (8 * n + 2) ++ enc_varint (Z.of_nat (length b)) ++ b
  | FFix32 n v => enc_varint (8 * n + 5) ++ enc_le 4 v
  end.
Definition enc_fields (fs : list field) : bytes := flat_map enc_field fs.

(** one field; groups (wire types 3 and 4), which voxblox never writes, are
    treated as malformed *)
Definition dec_field (bs : bytes) : option (field * bytes) :=
  match dec_varint32 bs with
  | None => None
  | Some (tag, r) =>
      let n := tag / 8 in
      if n =? 0 then None
      else
      match tag mod 8 with
      | 0 => match dec_varint64 r with Some (v, r') => Some (FVar n v, r') | None => None end
      | 1 => match dec_le 8 r with Some (v, r') => Some (FFix64 n v, r') | None => None end
      | 2 => match dec_varint32 r with
             | Some (len, r') =>
                 if len <=? Z.of_nat (length r') then
                   Some (FLen n (firstn (Z.to_nat len) r'), skipn (Z.to_nat len) r')
                 else None
             | None => None
             end
      | 5 => match dec_le 4 r with Some (v, r') => Some (FFix32 n v, r') | None => None end
      | _ => None
      end
  end.
(** all fields up to the end of the message; every field takes at least one
    byte, so [fuel = length bs] suffices *)
Fixpoint dec_fields (fuel : nat) (bs : bytes) : option (list field) :=
  match bs with
  | [] => Some []
  | _ =>
      match fuel with
      | O => None
      | S fuel' =>
          match dec_field bs with
          | Some (f, r) =>
              match dec_fields fuel' r with Some fs => Some (f :: fs) | None => None end
          | None => None
          end
      end
  end.
Definition parse (bs : bytes) : option (list field) := dec_fields (length bs) bs.

(** ** messages *)
(** proto/voxblox/Block.proto *)
Record BlockProto : Type := MkBP {
  bp_vps : Z; bp_voxel_size : f64; bp_x : f64; bp_y : f64; bp_z : f64;
  bp_has_data : bool; bp_data : list Z }.
Definition bp_fields (p : BlockProto) : list field :=
  [FVar 1 (u64 (bp_vps p)); FFix64 2 (dword (bp_voxel_size p)); FFix64 3 (dword (bp_x p));
   FFix64 4 (dword (bp_y p)); FFix64 5 (dword (bp_z p));
   FVar 6 (if bp_has_data p then 1 else 0)] ++ map (FVar 7) (bp_data p).
(** proto/voxblox/Layer.proto; the type string as bytes *)
Record LayerProto : Type := MkLP { lp_voxel_size : f64; lp_vps : Z; lp_type : bytes }.
Definition lp_fields (p : LayerProto) : list field :=
  [FFix64 1 (dword (lp_voxel_size p)); FVar 2 (lp_vps p); FLen 3 (lp_type p)].

(** a varint list (packed repeated field) *)
Fixpoint dec_packed (fuel : nat) (bs : bytes) : list Z :=
  match fuel with
  | O => []
  | S fuel' =>
      match dec_varint32 bs with Some (v, r) => v :: dec_packed fuel' r | None => [] end
  end.
(** merging one field into a message: the last occurrence of an optional field
    wins, repeated fields accumulate (packed or not), fields of another wire
    type or number are unknown and ignored *)
Definition bp_merge (p : BlockProto) (f : field) : BlockProto :=
  match f with
  | FVar 1 v => MkBP (wrap32 v) (bp_voxel_size p) (bp_x p) (bp_y p) (bp_z p) (bp_has_data p) (bp_data p)
  | FFix64 2 v => MkBP (bp_vps p) (dbits v) (bp_x p) (bp_y p) (bp_z p) (bp_has_data p) (bp_data p)
  | FFix64 3 v => MkBP (bp_vps p) (bp_voxel_size p) (dbits v) (bp_y p) (bp_z p) (bp_has_data p) (bp_data p)
  | FFix64 4 v => MkBP (bp_vps p) (bp_voxel_size p) (bp_x p) (dbits v) (bp_z p) (bp_has_data p) (bp_data p)
  | FFix64 5 v => MkBP (bp_vps p) (bp_voxel_size p) (bp_x p) (bp_y p) (dbits v) (bp_has_data p) (bp_data p)
  | FVar 6 v => MkBP (bp_vps p) (bp_voxel_size p) (bp_x p) (bp_y p) (bp_z p) (negb (v =? 0)) (bp_data p)
  | FVar 7 v => MkBP (bp_vps p) (bp_voxel_size p) (bp_x p) (bp_y p) (bp_z p) (bp_has_data p)
                  (bp_data p ++ [v mod 2 ^ 32])
  | FLen 7 b => MkBP (bp_vps p) (bp_voxel_size p) (bp_x p) (bp_y p) (bp_z p) (bp_has_data p)
                  (bp_data p ++ dec_packed (length b) b)
  | _ => p
  end.
Definition bp_default : BlockProto := MkBP 0 d0 d0 d0 d0 false [].
Definition bp_of_fields (fs : list field) : BlockProto := fold_left bp_merge fs bp_default.
Definition lp_merge (p : LayerProto) (f : field) : LayerProto :=
  match f with
  | FFix64 1 v => MkLP (dbits v) (lp_vps p) (lp_type p)
  | FVar 2 v => MkLP (lp_voxel_size p) (v mod 2 ^ 32) (lp_type p)
  | FLen 3 b => MkLP (lp_voxel_size p) (lp_vps p) b
  | _ => p
  end.
Definition lp_default : LayerProto := MkLP d0 0 [].
Definition lp_of_fields (fs : list field) : LayerProto := fold_left lp_merge fs lp_default.

(** ** framed stream *)
(** protobuf_utils.cc:29-38 [writeProtoMsgCountToStream] *)
Definition writeProtoMsgCount (n : Z) : bytes := enc_varint (u32 n).
(** protobuf_utils.cc:79-98 [writeProtoMsgToStream] (stream errors are not
    modelled) *)
Definition writeProtoMsg (fs : list field) : bytes :=
  let body := enc_fields fs in enc_varint (u32 (Z.of_nat (length body))) ++ body.

(** protobuf_utils.cc:10-27 [readProtoMsgCountFromStream]. Reading position and
    file are represented by the unread suffix. *)
Definition readProtoMsgCount (rest : bytes) : option (Z * bytes) := dec_varint32 rest.

(** [IstreamInputStream] fetches the file in chunks of this size, so the stream's
    eof flag is raised by fetching the chunk that contains the end of the file *)
Definition kChunk : Z := 8192.

(** protobuf_utils.cc:40-77 [readProtoMsgFromStream]: [None] is [return false].
    The third component is [stream_in->eof()] afterwards. [PushLimit] takes an
    int, a size of 2^31 or more becomes negative and sets no limit. When the
    file ends before the limit, the end of the file at a field boundary counts
    as a legitimate end of the message. *)
Definition readProtoMsg (rest : bytes) : option (list field * bytes * bool) :=
  match dec_varint32 rest with
  | None => None
  | Some (size, r) =>
      if size =? 0 then None
      else
        let body := if size <? 2 ^ 31 then firstn (Z.to_nat size) r else r in
        match parse body with
        | None => None
        | Some fs =>
            let r' := skipn (length body) r in
            let consumed := Z.of_nat (length rest) - Z.of_nat (length r') in
            let chunks := (consumed + (kChunk - 1)) / kChunk in
            let eof := (Z.of_nat (length rest) <? chunks * kChunk)
                       || (Z.of_nat (length body) <? size) in
            Some (fs, r', eof)
        end
  end.
