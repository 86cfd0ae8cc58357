(** What compressing and uncompressing are to do. *)
From Verif Require Export Model.Gzip.
Open Scope Z_scope.

(** the last part of the path is not empty and not only dots *)
Definition named (p : pystr) : Prop := exists d n c, p = d ++ n /\ (d = [] \/ exists d', d = d' ++ [slash]) /\ ~ In slash n /\ In c n /\ c <> dot.
(** text that is written as it was read *)
Definition lossless (dec : list Z -> option pystr) (enc : pystr -> option (list Z)) : Prop := forall l s, dec l = Some s -> enc s = Some l.
Definition readable (dec : list Z -> option pystr) (b : list Z) : Prop := Forall (fun l => dec l <> None) (byte_lines b).
