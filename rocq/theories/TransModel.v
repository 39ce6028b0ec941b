(** TransModel.v -- mechanical transmissions (transmission_interface).
    The arithmetic is a parameter: the real numbers for the exact statements, IEEE doubles for the
    others.  Handles point into one memory (addresses are numbers); a transmission reads and writes
    that memory exactly in the order of the C++ statements, so aliasing handles are represented. *)
From Coq Require Import List Bool String Ascii Arith.
Import ListNotations.
Open Scope string_scope.
Open Scope list_scope.

(** the arithmetic operations the code uses on double *)
Record arith := { num : Type; nadd : num -> num -> num; nsub : num -> num -> num; nmul : num -> num -> num;
  ndiv : num -> num -> num; ntwo : num; is_zero : num -> bool }.

(** hardware_interface_type_values.hpp, HW_IF_ABSOLUTE_POSITION (differential_transmission.hpp:111) *)
Inductive itf := Pos | Vel | Eff | Tor | For | Abs.
Definition itf_name (k : itf) : string :=
  match k with Pos => "position" | Vel => "velocity" | Eff => "effort" | Tor => "torque" | For => "force"
  | Abs => "absolute_position" end.

(** transmission_interface::Handle, handle.hpp:22-68; h_ptr = None is nullptr *)
Record handle := { h_prefix : string; h_itf : string; h_ptr : option nat }.

(** std::string operator< (bytes compared as unsigned char) *)
Definition str_lt (a b : string) : bool := match String.compare a b with Lt => true | _ => false end.
(** std::set<std::string>::insert *)
Fixpoint set_insert (s : string) (l : list string) : list string :=
  match l with
  | [] => [s]
  | x :: r => if str_lt s x then s :: l else if str_lt x s then x :: set_insert s r else l
  end.
(** get_names, accessor.hpp:44-52 *)
Definition get_names (hs : list handle) : list string :=
  fold_left (fun acc h => set_insert (h_prefix h) acc) hs [].
(** get_ordered_handles, accessor.hpp:54-71.  Only non-null handles are selected, and only their
    pointers are used afterwards: the model keeps the pointers. *)
Definition matching (name ity : string) (hs : list handle) : list nat :=
  flat_map (fun h => if String.eqb (h_prefix h) name && String.eqb (h_itf h) ity
                     then match h_ptr h with Some p => [p] | None => [] end else []) hs.
Definition ordered_handles (hs : list handle) (names : list string) (ity : string) : list nat :=
  flat_map (fun n => matching n ity hs) names.
(** get_by_interface, simple_transmission.hpp:173-186: the first handle with that interface, null or not *)
Definition by_interface (hs : list handle) (ity : string) : list nat :=
  match find (fun h => String.eqb (h_itf h) ity) hs with
  | Some h => match h_ptr h with Some p => [p] | None => [] end
  | None => [] end.
(** are_names_identical, simple_transmission.hpp:188-195 *)
Definition names_identical (hs : list handle) : bool :=
  match hs with [] => true | h :: r => forallb (fun x => String.eqb (h_prefix x) (h_prefix h)) r end.

Section Arith.
Variable A : arith.
Notation num := (num A). Notation "x + y" := (nadd A x y). Notation "x - y" := (nsub A x y).
Notation "x * y" := (nmul A x y). Notation "x / y" := (ndiv A x y).

(** the three transmissions with their parameters: joint/actuator reductions and joint offsets *)
Inductive trans :=
| Simple (red off : num)
| Differential (ar0 ar1 jr0 jr1 off0 off1 : num)
| FourBar (ar0 ar1 jr0 jr1 off0 off1 : num).
(** constructors, simple_transmission.hpp:163-171, differential_transmission.hpp:196-216,
    four_bar_linkage_transmission.hpp:185-204; None = Exception *)
Definition make_simple (red off : num) : option trans := if is_zero A red then None else Some (Simple red off).
Definition make_two (mk : num -> num -> num -> num -> num -> num -> trans) (ar jr off : list num) : option trans :=
  match ar, jr, off with
  | [a0; a1], [j0; j1], [o0; o1] =>
      if is_zero A a0 || is_zero A a1 || is_zero A j0 || is_zero A j1 then None else Some (mk a0 a1 j0 j1 o0 o1)
  | _, _, _ => None end.
Definition make_differential := make_two Differential.
Definition make_four_bar := make_two FourBar.

(** what configure stores: the pointers used for each interface, and the parameters *)
Record configured := { c_trans : trans; c_joint : itf -> list nat; c_act : itf -> list nat }.
Definition size (t : trans) : nat := match t with Simple _ _ => 1 | _ => 2 end.
(** the interfaces handled, in the order of the statements of actuator_to_joint *)
Definition itfs (t : trans) : list itf :=
  match t with Simple _ _ => [Eff; Vel; Pos; Tor; For; Abs] | Differential _ _ _ _ _ _ => [Pos; Vel; Eff; Tor; For; Abs]
  | FourBar _ _ _ _ _ _ => [Pos; Vel; Eff] end.
Definition nonempty {X} (l : list X) : bool := negb (Nat.eqb (List.length l) 0).
Definition two (l : list nat) : bool := Nat.eqb (List.length l) 2.
Definition same_size (l r : list nat) : bool := Nat.eqb (List.length l) (List.length r).
(** configure: simple_transmission.hpp:197-249, differential_transmission.hpp:218-429,
    four_bar_linkage_transmission.hpp:206-273; None = Exception *)
Definition configure (t : trans) (jh ah : list handle) : option configured :=
  if negb (nonempty jh) then None else if negb (nonempty ah) then None else
  match t with
  | Simple _ _ =>
      if negb (names_identical jh) then None else if negb (names_identical ah) then None else
      let J k := by_interface jh (itf_name k) in let C k := by_interface ah (itf_name k) in
      if negb (existsb (fun k => nonempty (J k)) (itfs t)) then None else
      if negb (existsb (fun k => nonempty (C k)) (itfs t)) then None else
      Some {| c_trans := t; c_joint := J; c_act := C |}
  | Differential _ _ _ _ _ _ =>
      if negb (Nat.eqb (List.length (get_names jh)) 2) then None else
      if negb (Nat.eqb (List.length (get_names ah)) 2) then None else
      let J k := ordered_handles jh (get_names jh) (itf_name k) in
      let C k := ordered_handles ah (get_names ah) (itf_name k) in
      if existsb (fun k => nonempty (J k) && negb (two (J k))) (itfs t) then None else
      if existsb (fun k => nonempty (C k) && negb (two (C k))) (itfs t) then None else
      if existsb (fun k => nonempty (J k) && nonempty (C k) && negb (same_size (J k) (C k))) (itfs t) then None else
      if negb (existsb (fun k => nonempty (J k) && nonempty (C k) && same_size (J k) (C k)) (itfs t)) then None else
      Some {| c_trans := t; c_joint := J; c_act := C |}
  | FourBar _ _ _ _ _ _ =>
      if negb (Nat.eqb (List.length (get_names jh)) 2) then None else
      if negb (Nat.eqb (List.length (get_names ah)) 2) then None else
      let J k := ordered_handles jh (get_names jh) (itf_name k) in
      let C k := ordered_handles ah (get_names ah) (itf_name k) in
      if forallb (fun k => negb (two (J k))) (itfs t) then None else
      if forallb (fun k => negb (two (C k))) (itfs t) then None else
      if forallb (fun k => negb (same_size (J k) (C k))) (itfs t) then None else
      Some {| c_trans := t; c_joint := J; c_act := C |}
  end.

(** memory the handles point to; Handle::get_value/set_value, handle.hpp:52-63 *)
Definition mem := nat -> num.
Definition store (m : mem) (p : nat) (v : num) : mem := fun q => if Nat.eqb q p then v else m q.

(** one interface of actuator_to_joint.  simple_transmission.hpp:251-283,
    differential_transmission.hpp:431-511, four_bar_linkage_transmission.hpp:275-315 *)
Definition a2j1 (t : trans) (k : itf) (J C : list nat) (m : mem) : mem :=
  match t with
  | Simple red off =>
      match J, C with
      | [j], [a] => match k with
          | Eff | Tor | For => store m j (m a * red)
          | Vel => store m j (m a / red)
          | Pos | Abs => store m j (m a / red + off) end
      | _, _ => m end
  | Differential ar0 ar1 jr0 jr1 off0 off1 =>
      match J, C with
      | [j0; j1], [a0; a1] => match k with
          | Pos | Abs =>
              let m := store m j0 ((m a0 / ar0 + m a1 / ar1) / (ntwo A * jr0) + off0) in
              store m j1 ((m a0 / ar0 - m a1 / ar1) / (ntwo A * jr1) + off1)
          | Vel =>
              let m := store m j0 ((m a0 / ar0 + m a1 / ar1) / (ntwo A * jr0)) in
              store m j1 ((m a0 / ar0 - m a1 / ar1) / (ntwo A * jr1))
          | Eff | Tor | For =>
              let m := store m j0 (jr0 * (m a0 * ar0 + m a1 * ar1)) in
              store m j1 (jr1 * (m a0 * ar0 - m a1 * ar1)) end
      | _, _ => m end
  | FourBar ar0 ar1 jr0 jr1 off0 off1 =>
      match J, C with
      | [j0; j1], [a0; a1] => match k with
          | Pos =>
              let m := store m j0 (m a0 / (jr0 * ar0) + off0) in
              store m j1 ((m a1 / ar1 - m a0 / (jr0 * ar0)) / jr1 + off1)
          | Vel =>
              let m := store m j0 (m a0 / (jr0 * ar0)) in
              store m j1 ((m a1 / ar1 - m a0 / (jr0 * ar0)) / jr1)
          | Eff =>
              let m := store m j0 (jr0 * m a0 * ar0 + m a1 * ar1) in
              store m j1 (jr1 * m a1 * ar1)
          | _ => m end
      | _, _ => m end
  end.
(** one interface of joint_to_actuator (absolute position has none).  simple_transmission.hpp:285-311,
    differential_transmission.hpp:513-582, four_bar_linkage_transmission.hpp:317-358 *)
Definition j2a1 (t : trans) (k : itf) (J C : list nat) (m : mem) : mem :=
  match t with
  | Simple red off =>
      match J, C with
      | [j], [a] => match k with
          | Eff | Tor | For => store m a (m j / red)
          | Vel => store m a (m j * red)
          | Pos => store m a ((m j - off) * red)
          | Abs => m end
      | _, _ => m end
  | Differential ar0 ar1 jr0 jr1 off0 off1 =>
      match J, C with
      | [j0; j1], [a0; a1] => match k with
          | Pos =>
              let x0 := m j0 - off0 in let x1 := m j1 - off1 in
              let m := store m a0 ((x0 * jr0 + x1 * jr1) * ar0) in
              store m a1 ((x0 * jr0 - x1 * jr1) * ar1)
          | Vel =>
              let m := store m a0 ((m j0 * jr0 + m j1 * jr1) * ar0) in
              store m a1 ((m j0 * jr0 - m j1 * jr1) * ar1)
          | Eff | Tor | For =>
              let m := store m a0 ((m j0 / jr0 + m j1 / jr1) / (ntwo A * ar0)) in
              store m a1 ((m j0 / jr0 - m j1 / jr1) / (ntwo A * ar1))
          | Abs => m end
      | _, _ => m end
  | FourBar ar0 ar1 jr0 jr1 off0 off1 =>
      match J, C with
      | [j0; j1], [a0; a1] => match k with
          | Pos =>
              let x0 := m j0 - off0 in let x1 := m j1 - off1 in
              let m := store m a0 (x0 * jr0 * ar0) in
              store m a1 ((x0 + x1 * jr1) * ar1)
          | Vel =>
              let m := store m a0 (m j0 * jr0 * ar0) in
              store m a1 ((m j0 + m j1 * jr1) * ar1)
          | Eff =>
              let m := store m a0 ((m j0 - m j1 / jr1) / (jr0 * ar0)) in
              store m a1 (m j1 / (ar1 * jr1))
          | _ => m end
      | _, _ => m end
  end.
Definition actuator_to_joint (c : configured) (m : mem) : mem :=
  fold_left (fun m k => a2j1 (c_trans c) k (c_joint c k) (c_act c k) m) (itfs (c_trans c)) m.
Definition joint_to_actuator (c : configured) (m : mem) : mem :=
  fold_left (fun m k => j2a1 (c_trans c) k (c_joint c k) (c_act c k) m) (itfs (c_trans c)) m.

(** TransmissionInfo (hardware_info.hpp:158-182) and the loaders: src/simple_transmission_loader.cpp:26-44,
    src/differential_transmission_loader.cpp:26-52, src/four_bar_linkage_transmission_loader.cpp:26-52.
    The declared names and roles are not passed on; None = empty pointer. *)
Record jinfo := { ji_name : string; ji_red : num; ji_off : num }.
Record ainfo := { ai_name : string; ai_red : num }.
Inductive kind := KSimple | KDifferential | KFourBar.
Definition load (k : kind) (js : list jinfo) (acts : list ainfo) : option trans :=
  match k with
  | KSimple => match js with j :: _ => make_simple (ji_red j) (ji_off j) | [] => None end
  | _ => match acts, js with
      | a0 :: a1 :: _, j0 :: j1 :: _ =>
          (match k with KDifferential => make_differential | _ => make_four_bar end)
            [ai_red a0; ai_red a1] [ji_red j0; ji_red j1] [ji_off j0; ji_off j1]
      | _, _ => None end
  end.
End Arith.
Arguments Simple {A}. Arguments Differential {A}. Arguments FourBar {A}.
