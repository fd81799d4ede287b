(** The two instances of the templates: which [fmt] record belongs to which type. *)
From Verif Require Import Machine Format Spec.

(** [float] and [double] instantiations; see Format.v *)
Definition fmt_of (t : ftype) : fmt := match t with Float => single | Double => double end.
