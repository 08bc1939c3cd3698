(* Model of src/gribjump/info/JumpInfo.h:72-87 and its subclasses SimpleInfo, CcsdsInfo
   (info/CcsdsInfo.h), UnsupportedInfo: the data members. *)
From Verif Require Import Base.

(* conversion of a signed 64-bit quantity (eckit::Offset, long) to size_t *)
Definition u64_of_Z (z : Z) : N := Z.to_N (z mod 18446744073709551616)%Z.

(* the dynamic class of a JumpInfo, with the members the subclass adds *)
Inductive info_class :=
| SimpleInfo
| CcsdsInfo (flags block_size rsi : N) (offsets : list N)
| UnsupportedInfo.

(* F is the type of double *)
Record info (F : Type) := mk_info {
  i_version : N;
  i_reference : F;
  i_binary_scale : Z;
  i_decimal_scale : Z;
  i_edition : N;
  i_bits_per_value : N;
  i_offset_before_data : Z;
  i_offset_after_data : Z;
  i_offset_before_bitmap : Z;
  i_number_of_values : N;
  i_number_of_points : N;
  i_total_length : Z;
  i_spherical : Z;
  i_md5 : string;
  i_packing : string;
  i_class : info_class
}.
Arguments i_version {F}. Arguments i_reference {F}. Arguments i_binary_scale {F}.
Arguments i_decimal_scale {F}. Arguments i_edition {F}. Arguments i_bits_per_value {F}.
Arguments i_offset_before_data {F}. Arguments i_offset_after_data {F}.
Arguments i_offset_before_bitmap {F}. Arguments i_number_of_values {F}.
Arguments i_number_of_points {F}. Arguments i_total_length {F}. Arguments i_spherical {F}.
Arguments i_md5 {F}. Arguments i_packing {F}. Arguments i_class {F}.
