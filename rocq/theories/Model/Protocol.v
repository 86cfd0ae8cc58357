(** environments.py:25-131 and helpers.py:425-430: protocol strings. *)
From Verif Require Export Model.PyStr.
Open Scope Z_scope.

Section protocol.
  Variable uni : pystr -> option Z.

  (** environments.py:68-84, the body of the loop *)
  Definition protocol_part (p : pystr) : pystr * Z :=
    let subparts := split dash p in
    match last subparts [] with
    | [] => (join [dash] (removelast subparts), 0)
    | end_ =>
        match int_of_str uni end_ with
        | Some num => (join [dash] (removelast subparts), num)
        | None => (join [dash] subparts, 0)
        end
    end.

  (** environments.py:46-85 *)
  Definition get_protocol_parts (protocol : pystr) : list (pystr * Z) :=
    map protocol_part (split underscore protocol).

  (** helpers.py:425-430 with 379-411: [format_param(name, int(steps), '-')], or the name alone
      when there are no steps. [clean_string] leaves the digits and the sign of an integer. *)
  Definition format_protocol (value : pystr * Z) : pystr :=
    let '(name, steps) := value in
    if steps =? 0 then name
    else match name with
         | [] => str_of_int steps
         | _ => name ++ [dash] ++ str_of_int steps
         end.

  (** environments.py:130-131 (the table is a list of rows) *)
  Definition protocol_str (data : list (pystr * Z)) : pystr :=
    join [underscore] (map format_protocol data).

  (** environments.py:25-30: EnvDir.__str__ *)
  Definition envdir_str (value : pystr * Z) : pystr :=
    let '(name, steps) := value in
    if steps =? 0 then name else name ++ [dash] ++ str_of_int steps.
End protocol.
