(** * Model of the [spawn!] macro (lib.rs:5-15) *)
From Verif Require Export History.

(** [spawn!(&mut world, c1, .., cn)]: [world.spawn().with(c1) .. .with(cn).build()]; without
    components [world.spawn().build()], which is the same with n = 0.  The builder is a temporary,
    dropped at the end of the expression. *)
Definition spawn_macro (l : list (ty * value)) : op :=
  OSpawn None cm_unit (((λ p, BWith p.1 p.2) <$> l) ++ [BBuild]) BDrop.
