(** Python programs that call the wrapper any number of times: words used in the statements about them. *)
From Coq Require Import String.
From Verif Require Import Machine Model.PyObj.
Import ListNotations.
Open Scope list_scope.
Open Scope N_scope.

(** the call came back to the program, with a value or an exception *)
Definition came_back (r : py_result py_ret) : Prop := (exists v, r = PyReturn v) \/ r = PyRaise.

(** the data a key object was made from *)
Definition data_of (k : py_key) : py_value := match k with PubObj d | PrivObj d => d end.

(** a bytes object that the program can hold *)
Definition exists_in (H : heap) (v : py_value) : Prop := forall i, v = VBytes i -> i < nlen H.

(** a message of less than 2 GiB that is not the very object the key was made from *)
Definition fit_message {T : Target} (H : heap) (k : py_key) (m : py_value) : Prop :=
  forall i bs, m = VBytes i -> content H i = Some bs ->
    nlen bs < 2 ^ 31 /\ nlen bs < 2 ^ usize_bits /\ data_of k <> VBytes i.

(** What a Python programmer must respect: use objects that exist, key objects that were returned by the
    constructors or by keygen, and fit messages. Arguments may otherwise be any objects. The length of a signature is
    checked by the wrapper. *)
Definition py_legal {T : Target} (H : heap) (objs : list py_key) (op : py_op) : Prop :=
  match op with
  | PNew _ | PKeygen => True
  | PPublic v | PPrivate v => exists_in H v
  | PBytes k | PRepr k => In k objs
  | PSign k m => In k objs /\ exists_in H m /\ fit_message H k m
  | PVerify k m sg => In k objs /\ exists_in H m /\ exists_in H sg /\ fit_message H k m /\ m <> sg
  end.

(** key objects handed to the program *)
Definition new_objs (r : py_result py_ret) : list py_key :=
  match r with PyReturn (RKey k) => [k] | PyReturn (RPair pk sk) => [pk; sk] | _ => [] end.
(** contents of a key pair handed to the program by keygen *)
Definition new_pairs (H' : heap) (r : py_result py_ret) : list (bytes * bytes) :=
  match r with
  | PyReturn (RPair (PubObj (VBytes p)) (PrivObj (VBytes s))) =>
      match content H' p, content H' s with Some pb, Some sb => [(pb, sb)] | _, _ => [] end
  | _ => []
  end.
(** signature handed to the program, with the public half of the key that made it and the message *)
Definition new_issued (H H' : heap) (op : py_op) (r : py_result py_ret) : list (bytes * bytes * bytes) :=
  match op, r with
  | PSign (PrivObj (VBytes k)) (VBytes m), PyReturn (RValue (VBytes s)) =>
      match content H k, content H m, content H' s with
      | Some kb, Some mb, Some sb => [(sub_bytes kb 32 64, mb, sb)]
      | _, _, _ => []
      end
  | _, _ => []
  end.

(** [py_history os g0 H0 g H objs pairs issued]: a Python program started with the system generator in state
    g0 and the bytes objects H0 and performed any number of legal actions, catching all exceptions; the
    generator is now in state g, the bytes objects are H, and the program was given the key objects objs, by
    keygen the key pairs pairs, and by sign the signatures issued. *)
Inductive py_history {T : Target} {P : Prims} {W : Wide} (os : Rng) (g0 : rng_st os) (H0 : heap)
  : rng_st os -> heap -> list py_key -> list (bytes * bytes) -> list (bytes * bytes * bytes) -> Prop :=
| py_start : py_history os g0 H0 g0 H0 [] [] []
| py_next g H objs pairs issued op g' H' r :
    py_history os g0 H0 g H objs pairs issued -> py_legal H objs op ->
    py_step os g H op = (g', H', r) -> came_back r ->
    py_history os g0 H0 g' H' (new_objs r ++ objs) (new_pairs H' r ++ pairs) (new_issued H H' op r ++ issued).
