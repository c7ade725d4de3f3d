(** An atomic slot for one element *)
From stdpp Require Import list.
From Verif Require Import AirModel.

Inductive air_spec {V} : option V -> airop V -> airret V -> option V -> Prop :=
| as_try_load v : air_spec None (ATryLoad v) (ABool true) (Some v)
| as_try_load_full v w : air_spec (Some w) (ATryLoad v) (ABool false) (Some w)
| as_load v : air_spec None (ALoad v) AUnit (Some v)
| as_unload v : air_spec (Some v) AUnload (AVal (Some v)) None
| as_unload_empty : air_spec None AUnload (AVal None) None
| as_loaded v : air_spec (Some v) AIsLoaded (ABool true) (Some v)
| as_not_loaded : air_spec None AIsLoaded (ABool false) None.
