(** File formats: configuration, detection, compression arguments.
    /repo/caput/pipeline/extensions/_configtypes.py: [file_format] (11-70);
    /repo/caput/memdata/fileformats.py: [HDF5.compression_kwargs] (180-240),
    [Zarr.compression_kwargs] (271-336), [guess_file_format] (387-416),
    [check_file_format] (419-483);
    /repo/caput/config.py: [Property.__get__], [Property.__set__],
    [Property._from_config] for this property type only.

    Simplified: texts are byte strings ([str.lower] knows the ASCII letters);
    both backends are installed; whether a name is a directory is a parameter. *)
From Coq Require Import String.
From Coq Require Import List Ascii Bool Arith ZArith.
From Verif Require Import PyBase PyStr GlobModel.
Import ListNotations.
Open Scope list_scope.
Open Scope nat_scope.

Inductive format := HDF5 | Zarr.
Definition format_eqb (a b : format) : bool := match a, b with HDF5, HDF5 | Zarr, Zarr => true | _, _ => false end.

(** * Configuration *)
(** Configured values: classes are the formats, the abstract [FileFormat] itself
    or other classes. *)
Inductive cval := CNone | CStr (s : str) | CFormat (f : format) | CAbstract | CClass | COther.
Inductive fval := FNone | FFormat (f : format) | FAbstract.
Definition lower_char (c : ascii) : ascii :=
  let n := nat_of_ascii c in if (65 <=? n) && (n <=? 90) then ascii_of_nat (n + 32) else c.
Definition lower (s : str) : str := map lower_char s.
(** [issubclass(val, FileFormat)]: its first argument must be a class. *)
Definition issubclass_format (v : cval) : res bool :=
  match v with
  | CFormat _ | CAbstract => Ok true
  | CClass => Ok false
  | CNone | CStr _ | COther => Err TypeError
  end.
(** [_prop], lines 44-63 *)
Definition prop (v : cval) : res fval :=
  match v with
  | CNone => Ok FNone
  | _ =>
      rbind (issubclass_format v) (fun b =>
        if b then Ok (match v with CFormat f => FFormat f | _ => FAbstract end)
        else match v with
             | CStr s =>
                 let s := lower s in
                 if seqb s (s_ "hdf5") then Ok (FFormat HDF5)
                 else if seqb s (s_ "zarr") then Ok (FFormat Zarr)
                 else Err CaputConfigError
             | _ => Err CaputConfigError
             end)
  end.
(** Lines 65-70: the property, or an error for the default. *)
Definition file_format (default : cval) : res cval :=
  match default with
  | CNone => Ok CNone
  | CStr s => if seqb (lower s) (s_ "hdf5") || seqb (lower s) (s_ "zarr") then Ok default else Err CaputConfigError
  | _ => Err CaputConfigError
  end.
(** config.py: reading an unset property, setting it, and setting it from a
    configuration. *)
Definition get_unset (default : cval) : res fval := match default with CNone => Ok FNone | d => prop d end.
Definition from_config (v : cval) : res fval := match prop v with Err TypeError => Err CaputConfigError | r => r end.

(** * Detection *)
(** [guess_file_format], lines 387-416 *)
Definition guess (is_dir : str -> bool) (name : str) (default : option format) : option format :=
  if endswith (s_ ".zarr.zip") name then Some Zarr
  else if endswith (s_ ".zarr") name || is_dir name then Some Zarr
  else if endswith (s_ ".h5") name || endswith (s_ ".hdf5") name then Some HDF5
  else default.
(** [check_file_format], lines 419-483.  [data] is the format of the group which
    is to be written, if it lives in a file; [bad] stands for a value of
    [file_format] other than the three allowed ones. *)
Definition check_format (is_dir : str -> bool) (name : str) (given : option format) (bad : bool) (data : option format) : res (option format) :=
  if bad then Err ValueError
  else
    let by_name := guess is_dir name None in
    let clash := match data, by_name with Some d, Some n => negb (format_eqb n d) | _, _ => false end in
    if clash then Err ValueError
    else
      let found := match data with Some d => Some d | None => by_name end in
      match given with
      | None => Ok found
      | Some f => match found with
                  | Some g => if format_eqb f g then Ok (Some f) else Err ValueError
                  | None => Err ValueError
                  end
      end.

(** * Compression arguments *)
(** bitshuffle.h5: H5FILTER is 32008, H5_COMPRESS_LZ4 is 2. *)
Definition H5FILTER : Z := 32008%Z.
Definition H5_COMPRESS_LZ4 : Z := 2%Z.
Inductive carg := ANone | AInt (z : Z) | AStr (s : str).
Inductive copts := ONone | OSeq (l : list carg) | OScalar (a : carg).
(** HDF5: the dictionary with the two arguments, or an empty one. *)
Definition is_filter (c : carg) : bool :=
  match c with
  | AStr s => seqb s (s_ "bitshuffle") || seqb s (s_ "32008")
  | AInt z => (z =? H5FILTER)%Z
  | ANone => false
  end.
Definition is_bitshuffle (c : carg) : bool := match c with AStr s => seqb s (s_ "bitshuffle") | _ => false end.
Definition falsy (c : carg) : bool := match c with ANone => true | AInt z => (z =? 0)%Z | AStr s => seqb s [] end.
(** [blocksize, c = compression_opts]; a string of two characters unpacks too. *)
Definition unpack2 (o : copts) : res (carg * carg) :=
  match o with
  | OSeq [a; b] => Ok (a, b)
  | OSeq _ => Err ValueError
  | OScalar (AStr [a; b]) => Ok (AStr [a], AStr [b])
  | OScalar (AStr _) => Err ValueError
  | OScalar _ | ONone => Err TypeError
  end.
Definition zero_if_none (a : carg) : carg := match a with ANone => AInt 0%Z | _ => a end.
(** Lines 180-240; [OtherException] is NotImplementedError. *)
Definition hdf5_kwargs (enabled : bool) (compression : carg) (opts : copts) (compressor : bool) : res (option (carg * copts)) :=
  if compressor then Err OtherException
  else if is_bitshuffle compression && negb enabled then Err RuntimeError
  else
    rbind (if enabled && is_filter compression then
             match opts with
             | ONone => Err ValueError
             | _ => rbind (unpack2 opts) (fun '(blocksize, c) =>
                      let c := match c with AStr s => if seqb s (s_ "2") || seqb s (s_ "lz4") then AInt H5_COMPRESS_LZ4 else c | _ => c end in
                      Ok (AInt H5FILTER, OSeq [zero_if_none blocksize; c]))
             end
           else Ok (compression, opts))
      (fun '(compression, opts) => match compression with ANone => Ok None | _ => Ok (Some (compression, opts)) end).
(** Zarr: the compressor. *)
Inductive codec (K : Type) := NoCodec | Gzip (level : copts) | Blosc (c : carg) (blocksize : Z) | Given (k : K).
Arguments NoCodec {K}. Arguments Gzip {K} level. Arguments Blosc {K} c blocksize. Arguments Given {K} k.
(** Lines 271-336.  [int] of a string is left out. *)
Definition opts_given (o : copts) : bool := match o with ONone => false | OSeq [] => false | OSeq _ => true | OScalar a => negb (falsy a) end.
Definition zarr_kwargs {K} (enabled : bool) (compression : carg) (opts : copts) (compressor : option K) : res (codec K) :=
  if (match compressor with Some _ => true | None => false end) && (negb (falsy compression) || opts_given opts) then Err ValueError
  else if falsy compression then Ok (match compressor with Some k => Given k | None => NoCodec end)
  else if negb enabled then Err ValueError
  else if (match compression with AStr s => seqb s (s_ "gzip") | _ => false end) then Ok (Gzip opts)
  else if is_filter compression then
    rbind (unpack2 opts) (fun '(blocksize, c) =>
      let c := match c with
               | AInt z => if (z =? H5_COMPRESS_LZ4)%Z then AStr (s_ "lz4") else c
               | AStr s => if seqb s (s_ "2") then AStr (s_ "lz4") else c
               | ANone => c
               end in
      match zero_if_none blocksize with
      | AInt b => Ok (Blosc c b)
      | _ => Err ValueError
      end)
  else Err ValueError.
