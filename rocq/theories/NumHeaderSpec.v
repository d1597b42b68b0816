(** Wire format of the length prefixes, written with plain arithmetic. *)
From Verif Require Import Py.

Definition wire16 (n : Z) : bytes :=
  if n <? 128 then [n]
  else if n <? 32768 then [128 + n / 256; n mod 256]
  else [128; n - 32768].

Definition wire32 (n : Z) : bytes :=
  if n <? 128 then [n]
  else [128 + n / 2 ^ 24; n / 2 ^ 16 mod 256; n / 2 ^ 8 mod 256; n mod 256].

(** The optional [end] argument leaves at least [k] readable bytes at [off]. *)
Definition end_allows (e : option Z) (off k : Z) : Prop :=
  match e with None => True | Some e => off + k <= e end.
