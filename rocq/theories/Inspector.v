(** The header inspector.  Models tools/src/mcap_header_inspector.cpp ("HI").
    Simplifications: the command line is already parsed, a file is what the mcap reader delivers;
    what is printed is kept as the values handed to the output stream, not their layout on the
    terminal; unknown option names (rejected by cxxopts before anything else) are not modelled. *)
From Verif Require Import Base Types Floats Codec Api Header Cdr Ros RosViz Mcap.
Open Scope Z_scope.
Open Scope list_scope.

(** One printed field, HI 145-153: name, offset, type, resolution *)
Record field_line := mkLine { l_name : list Z; l_offset : Z; l_type : list Z; l_resolution : list Z }.
(** What is printed for a message, HI 107-153 *)
Record report := mkReport { p_topic : list Z; p_time : Z; p_size : Z; p_compressed : Z; p_yaml : list Z; p_version : Z; p_width : Z; p_height : Z; p_step : Z; p_points : Z; p_bytes : Z; p_enc : list Z; p_comp : list Z; p_count : Z; p_fields : list field_line }.
(** float 1.0, HI 152: resolution.value_or(1.0) *)
Definition f32_one : Z := 1065353216.

Section Inspect.
  Variable ft : float_text.
  (** HI 145-153 *)
  Definition show_field (f : field) : field_line :=
    mkLine (f_name f) (f_off f) (FieldTypeToString (f_type f)) (ft_print ft match f_res f with Some r => r | None => f32_one end).
  (** HI 128-153; width, height and point_step are uint32_t, and so are their products *)
  Definition show_info (topic : list Z) (time size csize : Z) (i : info) : report :=
    mkReport topic time size csize (EncodingInfoToYAML ft i) (i_version i) (i_width i) (i_height i) (i_step i)
      (u32 (i_width i * i_height i)) (u32 (u32 (i_width i * i_height i) * i_step i))
      (EncodingToString (i_enc i)) (CompressionToString (i_comp i)) (zlen (i_fields i)) (map show_field (i_fields i)).
  (** HI 80-88: the channels whose schema has the compressed name; the schema is dereferenced *)
  Fixpoint compressed_channels (schemas : list schema) (cs : list channel) : res (list Z) :=
    match cs with
    | [] => Ok []
    | c :: cs' =>
        match find_schema schemas (ch_schema c) with
        | None => UB
        | Some s => do rest <- compressed_channels schemas cs' ; Ok (if leqb (s_name s) compressed_schema_name then ch_id c :: rest else rest)
        end
    end.
  (** HI 95-157: the first message on one of these channels; [Ok None]: there is none *)
  Fixpoint first_message (rec : recording) (ids : list Z) (l : list message) : res (option report) :=
    match l with
    | [] => Ok None
    | m :: l' =>
        if negb (existsb (Z.eqb (m_chan m)) ids) then first_message rec ids l' else
        match find_channel (rc_channels rec) (m_chan m) with
        | None => UB
        | Some c =>
            do pc <- getDeserializedPointCloudMessage (m_data m) ;
            do '(i, _) <- DecodeHeader ft (r_data pc) ;
            Ok (Some (show_info (ch_topic c) (m_log m) (zlen (m_data m)) (zlen (r_data pc)) i))
        end
    end.
  (** HI 64-169: the exit status, and what was printed about a message *)
  Definition inspect (rec : recording) : res (Z * option report) :=
    do ids <- compressed_channels (rc_schemas rec) (rc_channels rec) ;
    match ids with
    | [] => Ok (0, None)
    | _ =>
        match first_message rec ids (rc_messages rec) with
        | Ok (Some r) => Ok (0, Some r)
        | Ok None => Ok (1, None)
        | Throw => Ok (1, None)
        | UB => UB
        end
    end.
  (** The file named on the command line: does its name end in .mcap, does it exist, what does it hold
      ([None]: not a recording, or one without a readable summary) *)
  Record input_file := mkInput { in_mcap : bool; in_exists : bool; in_rec : option recording }.
  (** HI 30-170 main *)
  Definition inspector_main (help : bool) (file : option input_file) : res (Z * option report) :=
    if help then Ok (0, None) else
    match file with
    | None => Ok (1, None)
    | Some f =>
        if negb (in_mcap f) then Ok (1, None) else
        if negb (in_exists f) then Ok (1, None) else
        match in_rec f with None => Ok (1, None) | Some rec => inspect rec end
    end.
End Inspect.
