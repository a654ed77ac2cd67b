(** What is in the caller's output buffer when decoding ends, normally or with an exception.  The functions
    below follow the functions of Codec.v, V5.v and Api.v of the same structure step by step and return the
    memory at the point where they end.  C94 shows that they agree with those functions whenever these return
    normally.  Simplification: inside the loops that write one run of equal values (V5 842-845, 864-871) and
    while the values of one field decoder are stored (a field decoder stores after its last check: field_decoder.cpp
    43-86, field_decoder.hpp) nothing can throw, so the memory there is that before the loop; if a write is out of
    bounds, i.e. the outcome is [UB], what these functions return says nothing. *)
From Verif Require Import Base Varint Types Floats Fields Codec V5 Api.

(** Follows Codec.v [dec_point]: one point (V4 and V5 decoder loops) *)
Fixpoint left_point (ops : float_ops) (ds : list fdec) (sts : list fstate) (input : list Z) (base : Z) (mem : list Z) : list Z :=
  match ds, sts with
  | d :: ds', st :: sts' =>
      match dec_step ops d st input with
      | Ok (_, input', ss) =>
          match do_stores base ss mem with
          | Ok mem' => left_point ops ds' sts' input' base mem'
          | _ => mem
          end
      | _ => mem
      end
  | _, _ => mem
  end.
(** Follows Codec.v [dec_points_v4] (v4_codec.cpp 98-116) *)
Fixpoint left_points_v4 (ops : float_ops) (ds : list fdec) (minb : nat) (step : Z) (n : nat)
         (sts : list fstate) (input : list Z) (base : Z) (mem : list Z) : list Z :=
  match n with
  | O => mem
  | S k =>
      if (length input <? minb)%nat then mem
      else if zlen mem - base <? step then mem
      else match dec_point ops ds sts input base mem with
           | Ok (sts', input', mem') => left_points_v4 ops ds minb step k sts' input' (base + step) mem'
           | _ => left_point ops ds sts input base mem
           end
  end.
(** Follows Codec.v [dec_points_v4_all] (v4_codec.cpp 109-116) *)
Fixpoint left_points_v4_all (ops : float_ops) (ds : list fdec) (minb : nat) (step : Z) (fuel : nat)
         (sts : list fstate) (input : list Z) (base : Z) (mem : list Z) : list Z :=
  match fuel with
  | O => mem
  | S k =>
      match input with
      | [] => mem
      | _ =>
          if (length input <? minb)%nat then mem
          else if zlen mem - base <? step then mem
          else match dec_point ops ds sts input base mem with
               | Ok (sts', input', mem') => left_points_v4_all ops ds minb step k sts' input' (base + step) mem'
               | _ => left_point ops ds sts input base mem
               end
      end
  end.
Definition left_V4Chunk (ops : float_ops) (ds : list fdec) (minb : nat) (input : list Z) (step : Z) (expected : nat) (base : Z) (mem : list Z) : list Z :=
  if (0 <? expected)%nat
  then left_points_v4 ops ds minb step expected (resets ds) input base mem
  else left_points_v4_all ops ds minb step (S (length mem)) (resets ds) input base mem.
(** Follows V5.v [dec_points_v5] (v5_codec.cpp 984-1012) *)
Fixpoint left_points_v5 (ops : float_ops) (ds : list fdec) (step : Z) (n : nat) (sts : list fstate)
         (input : list Z) (base : Z) (mem : list Z) : list Z :=
  match n with
  | O => mem
  | S k =>
      match dec_point ops ds sts input base mem with
      | Ok (sts', input', mem') => left_points_v5 ops ds step k sts' input' (base + step) mem'
      | _ => left_point ops ds sts input base mem
      end
  end.

(** The sections of V5 integer columns (v5_codec.cpp 764-879) *)
Section LeftSection.
  Variables (a : afield) (base step : Z) (npts : Z).
  (** V5 780-792 *)
  Fixpoint left_delta (n : nat) (i prev : Z) (input mem : list Z) : list Z :=
    match n with
    | O => mem
    | S k =>
        match decodeVarint input with
        | Ok (diff, count) =>
            let value := s64 (prev + diff) in
            match put_value a base step i value mem with
            | Ok mem' => left_delta k (i + 1) value (skipn count input) mem'
            | _ => mem
            end
        | _ => mem
        end
    end.
  (** V5 818-825 *)
  Fixpoint left_indexes (n : nat) (i bits scratch held : Z) (pal ptr mem : list Z) : list Z :=
    match n with
    | O => mem
    | S k =>
        match readBitpackedIndex bits scratch held ptr with
        | Ok (idx, scratch, held, ptr) =>
            match nth_error pal (Z.to_nat idx) with
            | None => mem
            | Some v =>
                match put_value a base step i v mem with
                | Ok mem' => left_indexes k (i + 1) bits scratch held pal ptr mem'
                | _ => mem
                end
            end
        | _ => mem
        end
    end.
  (** V5 828-849 *)
  Fixpoint left_rle (fuel : nat) (r : Z) (out_index : Z) (input mem : list Z) : list Z :=
    if r <=? 0 then mem
    else match fuel with
         | O => mem
         | S k =>
             if (length input <? a_size a)%nat then mem
             else
               let value := le_val (firstn (a_size a) input) in
               match readUVarint (skipn (a_size a) input) with
               | Ok (run_len, rest) =>
                   if npts <? u64 (out_index + run_len) then mem
                   else match fill_run a base step (S (length mem)) out_index run_len value mem with
                        | Ok (out_index', mem') => left_rle k (r - 1) out_index' rest mem'
                        | _ => mem
                        end
               | _ => mem
               end
         end.
  (** V5 851-876 *)
  Fixpoint left_delta_rle (fuel : nat) (r out_index prev : Z) (input mem : list Z) : list Z :=
    if r <=? 0 then mem
    else match fuel with
         | O => mem
         | S k =>
             match decodeVarint input with
             | Ok (diff, count) =>
                 match readUVarint (skipn count input) with
                 | Ok (run_len, rest) =>
                     if npts <? u64 (out_index + run_len) then mem
                     else match fill_delta_run a base step (S (length mem)) out_index run_len prev diff mem with
                          | Ok (out_index', prev', mem') => left_delta_rle k (r - 1) out_index' prev' rest mem'
                          | _ => mem
                          end
                 | _ => mem
                 end
             | _ => mem
             end
         end.
  (** V5 764-879 *)
  Definition left_section (input mem : list Z) : list Z :=
    match input with
    | [] => mem
    | mode :: input =>
        match mode with
        | 0 => left_delta (Z.to_nat npts) 0 0 input mem
        | 1 =>
            match take_uint 2 input with
            | Ok (count, input) =>
                if count =? 0 then mem
                else match dec_palette a (Z.to_nat count) input with
                     | Ok (pal, input) =>
                         let bits := bitsForPaletteIndex count in
                         let index_bytes := Z.to_nat ((bits * npts + 7) / 8) in
                         if (length input <? index_bytes)%nat then mem
                         else left_indexes (Z.to_nat npts) 0 bits 0 0 pal input mem
                     | _ => mem
                     end
            | _ => mem
            end
        | 2 => match take_uint 4 input with Ok (count, input) => left_rle (S (length input)) count 0 input mem | _ => mem end
        | 3 => match take_uint 4 input with Ok (count, input) => left_delta_rle (S (length input)) count 0 0 input mem | _ => mem end
        | _ => mem
        end
    end.
End LeftSection.
Fixpoint left_sections (afs : list afield) (base step npts : Z) (input mem : list Z) : list Z :=
  match afs with
  | [] => mem
  | a :: afs' =>
      match decode_section a base step npts input mem with
      | Ok (input', mem') => left_sections afs' base step npts input' mem'
      | _ => left_section a base step npts input mem
      end
  end.
(** V5 984-1012 *)
Definition left_V5Chunk (ops : float_ops) (i : info) (ds : list fdec) (input : list Z) (expected : nat) (base : Z) (mem : list Z) : list Z :=
  if (expected =? 0)%nat then mem
  else if zlen mem - base <? Z.of_nat expected * i_step i then mem
  else match dec_points_v5 ops ds (i_step i) expected (resets ds) input base mem with
       | Ok (input1, mem1) => left_sections (getV5AdaptiveFields i) base (i_step i) (Z.of_nat expected) input1 mem1
       | _ => left_points_v5 ops ds (i_step i) expected (resets ds) input base mem
       end.
(** Follows Api.v [decodeChunk] *)
Definition left_chunk (ops : float_ops) (L : libs) (i : info) (ds : list fdec) (minb : nat)
           (chunk buf : list Z) (expected : nat) (base : Z) (mem : list Z) : list Z :=
  let max := u64 (u64 (i_width i * i_height i) * i_step i) in
  match DecompressChunk L (i_comp i) chunk buf max with
  | Ok (view, _) =>
      if UsesV5Codec i then left_V5Chunk ops i ds view expected base mem
      else left_V4Chunk ops ds minb view (i_step i) expected base mem
  | _ => mem
  end.
(** Follows Api.v [dec_loop] *)
Fixpoint left_loop (ops : float_ops) (L : libs) (ppc : nat) (i : info) (ds : list fdec) (minb : nat)
         (fuel : nat) (data buf : list Z) (points base : Z) (mem : list Z) : list Z :=
  match data with
  | [] => mem
  | _ =>
      match fuel with
      | O => mem
      | S k =>
          if points =? 0 then mem
          else match take_uint 4 data with
               | Ok (size, data1) =>
                   if zlen data1 <? size then mem
                   else
                     let n := Z.min points (Z.of_nat ppc) in
                     match decodeChunk ops L i ds minb (firstn (Z.to_nat size) data1) buf (Z.to_nat n) base mem with
                     | Ok (buf', base', mem') => left_loop ops L ppc i ds minb k (skipn (Z.to_nat size) data1) buf' (points - n) base' mem'
                     | _ => left_chunk ops L i ds minb (firstn (Z.to_nat size) data1) buf (Z.to_nat n) base mem
                     end
               | _ => mem
               end
      end
  end.
(** Follows Api.v [decode]: the output buffer after a call of decode(), however it ended *)
Definition decode_left (ops : float_ops) (L : libs) (ppc : nat) (i : info) (data buf out : list Z) : list Z :=
  match updateDecoders i with
  | Ok (ds, minb) =>
      if has_magic data then out
      else if 3 <=? i_version i then left_loop ops L ppc i ds minb (S (length data)) data buf (u64 (i_width i * i_height i)) 0 out
      else left_chunk ops L i ds minb data buf O 0 out
  | _ => out
  end.
