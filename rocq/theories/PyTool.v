(** The command line program that decodes a recording in Python.  Models cloudini_py/decode_mcap.py
    ("PT") on top of Python.v.
    A recording is what mcap.reader delivers: the summary section, if the file has one, and the
    messages in the order of iter_messages(), each with the name of its schema, if it has one.
    One decoder is made for the whole recording, and with it one output buffer: a message is decoded
    into whatever the earlier ones left there.  [junk k mem] is the contents after the [k]-th call
    that did not return a size, [yaml k] what the k-th allocation for the header text
    (cloudini_decoder.py 226-227) happens to contain; both are arbitrary.
    [UB]: memory of the WebAssembly instance is overwritten; nothing is said about such a run.
    Simplifications: malloc succeeds (the module exports malloc, CMakeLists.txt 149, so the
    fallback of cloudini_decoder.py 132-135 is not taken); a failed call leaves the instance usable
    (the stack of the instance is not unwound by a trap); printing is left out except for what is
    reported about each message; the traceback is not modelled. *)
From Verif Require Import Base Types Floats V5 Api Header Ros Wasm Python.
From Coq Require Import String.
Open Scope Z_scope.
Open Scope list_scope.

(** what iter_messages() yields: the schema's name (None: no schema) and the payload *)
Record mcap_item := mkItem { it_schema : option (list Z); it_data : list Z }.
(** [fd_summary]: get_summary(): None if the file has no summary section; inside, whether it has
    the statistics record *)
Record mcap_file := mkFile { fd_summary : option bool; fd_items : list mcap_item }.
(** "✓ Decoded successfully!" and what decode_message returned, or "Failed to decode" *)
Inductive report := Decoded (a : ndarray) (h : header) | Failed.

(** Python's [a in b] for strings *)
Fixpoint py_in (a b : list Z) : bool :=
  py_startswith b a || match b with [] => false | _ :: b' => py_in a b' end.
(** PT 48: schema and 'CompressedPointCloud2' in schema.name *)
Definition is_compressed (it : mcap_item) : bool :=
  match it_schema it with Some name => py_in (str "CompressedPointCloud2") name | None => false end.
(** PT 78: if max_messages and msg_count >= max_messages *)
Definition reached (max_messages : option Z) (count : Z) : bool :=
  match max_messages with None => false | Some m => negb (m =? 0) && (m <=? count) end.

Section Tool.
  Variables (utf8 : list Z -> res (list Z)) (py_float : list Z -> option Z).
  Variables (ft : float_text) (ops : float_ops) (L : libs) (ppc : nat).
  Variables (junk : Z -> list Z -> list Z) (yaml : Z -> list Z).

  (** the output buffer after the call cloudini_decoder.py 172 *)
  Definition after_call (k : Z) (msg out : list Z) : list Z :=
    match cldn_DecodeCompressedMessage ft ops L ppc msg out with
    | (Ok n, mem) => if n =? 0 then junk k out else mem
    | _ => junk k out
    end.
  (** PT 43-80; [count]: msg_count.  Result: the reports and the final count *)
  Fixpoint messages (max_messages : option Z) (count : Z) (out : list Z) (l : list mcap_item) : res (list report * Z) :=
    match l with
    | [] => Ok ([], count)
    | it :: l' =>
        if is_compressed it then
          let count := count + 1 in
          do r <- (match decode_message utf8 py_float ft ops L ppc (it_data it) (yaml count) out with
                   | Ok (a, h) => Ok (Decoded a h)
                   | Throw => Ok Failed
                   | UB => UB
                   end) ;
          if reached max_messages count then Ok ([r], count)
          else do '(rs, n) <- messages max_messages count (after_call count (it_data it) out) l' ; Ok (r :: rs, n)
        else messages max_messages count out l'
    end.
  (** PT 15-83: summary.statistics is used without a check (PT 34); [out]: the new output buffer *)
  Definition decode_mcap_file (f : mcap_file) (max_messages : option Z) (out : list Z) : res (list report * Z) :=
    match fd_summary f with
    | Some true => messages max_messages 0 out (fd_items f)
    | _ => Throw
    end.
  (** PT 86-134: the option --max-messages, default -1 *)
  Definition main (f : mcap_file) (arg : Z) (out : list Z) : res (list report * Z) :=
    decode_mcap_file f (if arg <? 0 then None else Some arg) out.
End Tool.
