(** Specification: what has been printed and what is on the disk after some events (C87). *)
From Verif Require Export M_Log.
From stdpp Require Import list gmap.

Definition said (h : list event) : list text := omap (fun e => match e with Say s => Some s | Disk _ => None end) h.
Definition disk_of (d : directory) (h : list event) : directory := foldl (fun d e => match e with Disk e => apply_event d e | Say _ => d end) d h.
