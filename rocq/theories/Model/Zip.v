(** z.py: compressing a file from the command line. Files are lists of bytes here. *)
From Verif Require Export Model.AC Model.KT Model.PTW Model.FMN Model.Jobs.
Open Scope Z_scope.

(** What the generator of z.py:29-37 does: hand out a byte, print, or raise. *)
Inductive read_event := Yield (b : Z) | Show (t : pystr) | Raise (e : exn).

(** z.py:20-27. [n * '='] is empty for negative [n]. *)
Definition progress_bar (frac : R) : pystr :=
  let bar_length := 60 in
  let prog_length := py_int (frac * 60) in
  let bar := repeat 61 (Z.to_nat prog_length) ++
    (if prog_length <? bar_length then 62 :: repeat sp (Z.to_nat (bar_length - prog_length - 1)) else []) in
  13 :: lit "[" ++ bar ++ lit "]  " ++ str_of_int (py_int (frac * 100)) ++ lit "%".

(** [file.read(1024)] until nothing is left (z.py:32-33); [fuel] bounds the number of chunks. *)
Fixpoint chunks (fuel : nat) (data : list Z) : list (list Z) :=
  match fuel, data with
  | O, _ | _, [] => []
  | S fuel', _ => firstn 1024 data :: chunks fuel' (skipn 1024 data)
  end.

(** z.py:29-37: the bytes of each chunk, then the bar, printed when the next byte is asked for. *)
Fixpoint bytes_of_chunks (nbytes count : Z) (cs : list (list Z)) : list read_event :=
  match cs with
  | [] => []
  | c :: cs' =>
      let count := count + Z.of_nat (length c) in
      map Yield c ++
      (if nbytes =? 0 then [Raise ZeroDivisionError]
       else Show (progress_bar (IZR count / IZR nbytes)) :: bytes_of_chunks nbytes count cs')
  end.
Definition bytes_with_progress (data : list Z) (nbytes : Z) : list read_event :=
  bytes_of_chunks nbytes 0 (chunks (length data) data).

(** The model chosen, in its first state, as the coder uses it, and the number of nodes it tells
    ([hasattr(probmodel, 'size')], z.py:96; no model with a size gets that far). *)
Inductive chosen := | Chosen {S : Type} (C : coder_model S) (m : S) (nodes : option Z).

(** A model whose [update] demands a history: [update(symbol)] (ac.py:96) raises TypeError. *)
Definition needs_history : coder_model unit :=
  CoderModel (fun _ _ _ => Err TypeError) (fun _ _ => Err TypeError) (fun _ _ => Err TypeError).

Section zip.
  (** What [int] makes of digits outside ASCII; [sys.byteorder]; ["{:7.df}".format(x)] for [d] decimals;
      the running time and the memory used, as measured; iterations of the encoder's inner loop. *)
  Variable uni : pystr -> option Z.
  Variable little : bool.
  Variable fmt : nat -> R -> pystr.
  Variable elapsed memory : R.
  Variable fuel : nat.

  (** What docopt makes of the command line (z.py:3-8); the only other command is uncompress. *)
  Record z_args := ZArgs { z_compress : bool; z_infile : pystr; z_outfile : pystr; z_model : pystr; z_depth : pystr }.

  (** z.py:47-70. model.py has no CommonHistory (AttributeError) and nothing defines Error (NameError).
      CTW, CTW_KT and modelfast.CTW_KT are made here (with one node) but their [update] demands a history;
      the C code of modelfast is assumed to compile. *)
  Definition choose_model (name : pystr) (depth : Z) : result chosen :=
    if streq name (lit "CTW") then Ok (Chosen needs_history tt (Some 1))
    else if streq name (lit "FastCTW") then Ok (Chosen needs_history tt (Some 1))
    else if streq name (lit "PTW_FastCTW") then Err AttributeError
    else if streq name (lit "FMN_FastCTW") then Err AttributeError
    else if streq name (lit "CTW_KT") then Ok (Chosen needs_history tt (Some 1))
    else if streq name (lit "KT") then Ok (Chosen (coder_of KT_model) (kt_init [0; 1]) None)
    else if streq name (lit "PTW") then
      Ok (Chosen (coder_of (PTW_model KTB_model (min_height_of 1) ktb_init)) (ptw_init (min_height_of 1) ktb_init) None)
    else if streq name (lit "FMN") then
      do s <- fmn_init (LogStore_class ktb) (min_height_of 1024) ktb_init;
      Ok (Chosen (coder_of (FMN_model KTB_model (LogStore_class ktb) (min_height_of 1024))) s None)
    else if streq name (lit "PTW_CTW") then Err AttributeError
    else if streq name (lit "FMN_CTW") then Err AttributeError
    else if streq name (lit "CTW_PTW") then Ok (Chosen needs_history tt (Some 1))
    else Err NameError.

  (** The encoder on some bits (ac.py:22): the bits put out before the end or an exception. *)
  Fixpoint code_bits {S} (C : coder_model S) (s : enc) (bits : list Z) : list Z * result (@enc S) :=
    match bits with
    | [] => ([], Ok s)
    | b :: bits' =>
        match encode C 32 fuel s b with
        | Err e => ([], Err e)
        | Ok (s', out) => let (out', r) := code_bits C s' bits' in (out ++ out', r)
        end
    end.

  (** compress_bytes (ac.py:27-34) pulling bytes from the generator: what is printed, the code bits. *)
  Fixpoint code_events {S} (C : coder_model S) (s : enc) (evs : list read_event)
    : list pystr * list Z * result (@enc S) :=
    match evs with
    | [] => ([], [], Ok s)
    | Raise e :: _ => ([], [], Err e)
    | Show t :: evs' => let '(shown, out, r) := code_events C s evs' in (t :: shown, out, r)
    | Yield b :: evs' =>
        let (out, r) := code_bits C s (unpack [b]) in
        match r with
        | Err e => ([], out, Err e)
        | Ok s' => let '(shown, out', r) := code_events C s' evs' in (shown, out ++ out', r)
        end
    end.

  (** The bytes handed to [outfs.write] (z.py:82-84): only whole groups of 8 if an exception ends it. *)
  Definition code_bytes {S} (C : coder_model S) (m : S) (evs : list read_event) : list pystr * list Z * result unit :=
    let '(shown, out, r) := code_events C (enc_init 32 m) evs in
    match r with
    | Ok s => (shown, pack (out ++ enc_flush 32 s), Ok tt)
    | Err e => (shown, pack (firstn (8 * Nat.div (length out) 8) out), Err e)
    end.

  (** [msglen.to_bytes(4, sys.byteorder)] (z.py:80) *)
  Definition length_bytes (n : Z) : result (list Z) :=
    if n <? 2 ^ 32 then
      let bs := map (fun i => Z.land (Z.shiftr n (8 * Z.of_nat i)) 255) (seq 0 4) in
      Ok (if little then bs else rev bs)
    else Err OverflowError.

  (** z.py:87-97: the lines printed at the end, up to an exception. *)
  Definition statistics (codelen msglen : Z) (nodes : option Z) : list pystr * result unit :=
    let title := [[nl; nl] ++ lit "Compression statistics:" ++ [nl]] in
    if msglen =? 0 then (title, Err ZeroDivisionError)
    else
      let first := [ z_line (lit "Ratio:") (fmt 4 (IZR (codelen + 4) / IZR msglen * 100) ++ lit "%");
                     z_line (lit "Size:") (str_of_int (codelen + 4) ++ lit " bytes");
                     z_line (lit "Bits per Byte:") (fmt 5 (IZR ((codelen + 4) * 8) / IZR msglen));
                     z_line (lit "Time:") (fmt 6 elapsed ++ lit "s") ] in
      if Req_EM_T elapsed 0 then (title ++ first, Err ZeroDivisionError)
      else
        (title ++ first ++ [z_line (lit "KB/s:") (fmt 6 (IZR msglen / 1024 / elapsed))] ++
         (match nodes with Some n => [z_line (lit "# of Nodes:") (str_of_int n)] | None => [] end) ++
         [z_line (lit "Memory Used:") (fmt 4 (memory / 1000000) ++ lit " MB")], Ok tt).

  (** z.py:41-105: the files, what is printed, how it ends. Opening the output file empties it at once, also
      if it is the input; what is written to it is there when the program ends. It is assumed that the
      output file can be opened and written. [args['decompress']] is no key of docopt's dictionary. *)
  Definition z_main (fs : list (pystr * list Z)) (args : z_args)
    : list (pystr * list Z) * list pystr * result unit :=
    match int_of_str uni (z_depth args) with
    | None => (fs, [], Err ValueError)
    | Some depth =>
        match choose_model (z_model args) depth with
        | Err e => (fs, [], Err e)
        | Ok (Chosen C m nodes) =>
            if z_compress args then
              match gd_get streq fs (z_infile args) with
              | None => (fs, [], Err OSError)
              | Some text =>
                  let msglen := Z.of_nat (length text) in
                  let start := lit "Compressing " ++ z_infile args ++ lit " (" ++ str_of_int msglen ++ lit " bytes)" ++ [nl; nl] in
                  let fs1 := gd_set streq fs (z_outfile args) [] in
                  match length_bytes msglen with
                  | Err e => (fs1, [start], Err e)
                  | Ok header =>
                      let data := match gd_get streq fs1 (z_infile args) with Some d => d | None => [] end in
                      let '(shown, code, r) := code_bytes C m (bytes_with_progress data msglen) in
                      let fs2 := gd_set streq fs1 (z_outfile args) (header ++ code) in
                      match r with
                      | Err e => (fs2, start :: shown, Err e)
                      | Ok _ =>
                          let (lines, r) := statistics (Z.of_nat (length code)) msglen nodes in
                          (fs2, start :: shown ++ lines, r)
                      end
                  end
              end
            else (fs, [], Err KeyError)
        end
    end.
End zip.
