(** * Specification: bit arrays as their constructor allocates them *)

Require Import List Arith NArith.
Require Import Verif.Base Verif.M_Bitarray.
Import ListNotations.

(** Every field is the one the constructor of FeaturesBitArray computes from [n_samples]
    and [max_values]; the words can have any content. All the bit arrays of the library are
    of this kind: they come from the constructor and their words are then filled in place. *)
Definition allocated (fb : fba) : Prop := exists mem fb0,
  fba_init mem (fb_n_samples fb) (fb_max_values fb) = Ok fb0 /\
  length (fb_bitarray fb) = length (fb_bitarray fb0) /\
  fb = mkFba (fb_n_samples fb0) (fb_n_features fb0) (fb_max_values fb0) (fb_n_bits fb0) (fb_offsets fb0) (fb_n_values fb0)
         (fb_bitmasks fb0) (fb_bitarray fb).
