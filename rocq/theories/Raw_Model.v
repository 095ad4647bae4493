(** Reading images: raw files and grey values.
    Source: ledsa/core/image_reading.py
    The decoders (rawpy, matplotlib) are outside the model: their results are
    the arguments.  The product with white/(white-black) is computed exactly,
    not in floating point. *)
From Coq Require Import ZArith QArith Qround Lia Bool Ascii String List.
From Verif Require Import Base Str.
Import ListNotations.
Local Open Scope string_scope.
Local Open Scope Z_scope.

(** numpy int16 arithmetic wraps around.  image_reading.py:91-92. *)
Definition int16 (x : Z) : Z := (x + 32768) mod 65536 - 32768.

(** [np.clip(x, lo, hi)].  image_reading.py:93. *)
Definition clip (lo hi x : Z) : Z := Z.min hi (Z.max lo x).

(** One pixel of [_read_img_array_from_raw_file], image_reading.py:91-93:
    conversion to int16, subtraction of the black level, scaling (truncated
    towards zero), clipping. *)
Definition pixel (black white data : Z) : Z :=
  clip 0 white (int16 (Z.quot (int16 (int16 data - black) * white) (white - black))).

(** The whole image, image_reading.py:84-94; [levels] is black_level_per_channel. *)
Definition raw_image (levels : list Z) (white : Z) (data : list (list Z)) (channel : Z) : res (list (list Z)) :=
  if channel <? 0 then Err IndexError    (* negative channels are not used *)
  else match nth_error levels (Z.to_nat channel) with
       | None => Err IndexError
       | Some black => if white =? black then Err ZeroDivisionError
                       else Ok (map (map (pixel black white)) data)
       end.

(** [np.where(mask(filter), img, 0)].  image_reading.py:76-81. *)
Definition where_ (keep : Z -> bool) (colors img : list (list Z)) : list (list Z) :=
  map (fun p => map (fun q => if keep (fst q) then snd q else 0) (combine (fst p) (snd p))) (combine colors img).

(** [_read_channel_data_from_raw_file], image_reading.py:76-81; for any other
    channel the variable [channel_array] is never assigned. *)
Definition raw_channel (levels : list Z) (white : Z) (data colors : list (list Z)) (channel : Z) : res (list (list Z)) :=
  bind (raw_image levels white data channel) (fun img =>
  if (channel =? 0) || (channel =? 2) then Ok (where_ (fun c => c =? channel) colors img)
  else if channel =? 1 then Ok (where_ (fun c => (c =? 1) || (c =? 3)) colors img)
  else Err UnboundLocalError).

(** ** File types *)

(** [os.path.splitext(name)[-1]] for a file name: the text from the last dot on,
    empty if there is none or only leading dots (Python standard library).
    image_reading.py:22, 41. *)
Fixpoint ext_from (s : string) : string :=
  match s with
  | "" => ""
  | String c s' => match ext_from s' with
                   | "" => if Ascii.eqb c "."%char then s else ""
                   | e => e
                   end
  end.

(** Leading dots, image_reading.py:22, 41. *)
Fixpoint drop_dots (s : string) : string :=
  match s with String "."%char s' => drop_dots s' | _ => s end.

(** [os.path.splitext(name)[-1]], image_reading.py:22, 41. *)
Definition ext_of (name : string) : string := ext_from (drop_dots name).

(** The extensions of images, image_reading.py:23, 42. *)
Definition is_img (e : string) : bool :=
  existsb (String.eqb e) [".JPG"; ".JPEG"; ".jpg"; ".jpeg"; ".PNG"; ".png"].
(** The extensions of raw files, image_reading.py:25, 44. *)
Definition is_raw (e : string) : bool := existsb (String.eqb e) [".CR2"; ".CR3"].

(** [read_channel_data_from_img] and [read_img_array_from_img],
    image_reading.py:22-27 and 41-46: with another extension the result variable
    is never assigned. *)
Definition read_by_extension {A} (from_img from_raw : res A) (name : string) : res A :=
  let e := ext_of name in
  if is_img e then from_img else if is_raw e then from_raw else Err UnboundLocalError.

(** ** Grey values *)

(** [np.dot(rgb, weights).astype(np.uint8)], image_reading.py:102-103, for
    non-negative values: truncation and reduction modulo 256. *)
Definition gray (r g b : Q) : Z :=
  Qfloor ((2989 # 10000) * r + (5870 # 10000) * g + (1140 # 10000) * b) mod 256.

(** What [plt.imread] returns: integers 0..255 for JPEG files, numbers between 0
    and 1 for PNG files (matplotlib documentation).  image_reading.py:96-104. *)
Definition jpeg_value (v : Q) : Prop := exists n, 0 <= n <= 255 /\ v = inject_Z n.
(** The values of a PNG file, image_reading.py:96-104. *)
Definition png_value (v : Q) : Prop := (0 <= v <= 1)%Q.
