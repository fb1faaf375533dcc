(** Model of Parameter.cpp: parsing the command line. *)
From Verif Require Export DataModel.
Local Open Scope nat_scope.

(** include/fastpgm/Parameter.h L12-40; the fields that no option sets are left out. [D]: double. *)
Record params (D : Type) := mkParams {
  p_job : Z; p_method : Z; p_threads : Z; p_samples : Z; p_group : Z; p_alpha : D; p_class : Z;
  p_save_struct : bool; p_save_param : bool;
  p_net : str; p_ref : str; p_train : str; p_test : str; p_pt : str }.
Arguments mkParams {D}. Arguments p_job {D}. Arguments p_method {D}. Arguments p_threads {D}. Arguments p_samples {D}.
Arguments p_group {D}. Arguments p_alpha {D}. Arguments p_class {D}. Arguments p_save_struct {D}. Arguments p_save_param {D}.
Arguments p_net {D}. Arguments p_ref {D}. Arguments p_train {D}. Arguments p_test {D}. Arguments p_pt {D}.

(** The integer options. *)
Inductive int_field := Job | Method | Threads | Samples | Group | Class.
Definition set_int {D} (p : params D) (f : int_field) (z : Z) : params D :=
  let '(mkParams j m t q g a c ss sp f0 f1 f2 f3 f4) := p in
  match f with
  | Job => mkParams z m t q g a c ss sp f0 f1 f2 f3 f4
  | Method => mkParams j z t q g a c ss sp f0 f1 f2 f3 f4
  | Threads => mkParams j m z q g a c ss sp f0 f1 f2 f3 f4
  | Samples => mkParams j m t z g a c ss sp f0 f1 f2 f3 f4
  | Group => mkParams j m t q z a c ss sp f0 f1 f2 f3 f4
  | Class => mkParams j m t q g a z ss sp f0 f1 f2 f3 f4
  end.
Definition set_alpha {D} (p : params D) (a : D) : params D :=
  let '(mkParams j m t q g _ c ss sp f0 f1 f2 f3 f4) := p in mkParams j m t q g a c ss sp f0 f1 f2 f3 f4.
Definition clear_struct {D} (p : params D) : params D :=
  let '(mkParams j m t q g a c _ sp f0 f1 f2 f3 f4) := p in mkParams j m t q g a c false sp f0 f1 f2 f3 f4.
Definition clear_param {D} (p : params D) : params D :=
  let '(mkParams j m t q g a c ss _ f0 f1 f2 f3 f4) := p in mkParams j m t q g a c ss false f0 f1 f2 f3 f4.
Inductive file_field := Net | Ref | Train | Test | Pt.
Definition set_file {D} (p : params D) (f : file_field) (s : str) : params D :=
  let '(mkParams j m t q g a c ss sp f0 f1 f2 f3 f4) := p in
  match f with
  | Net => mkParams j m t q g a c ss sp s f1 f2 f3 f4
  | Ref => mkParams j m t q g a c ss sp f0 s f2 f3 f4
  | Train => mkParams j m t q g a c ss sp f0 f1 s f3 f4
  | Test => mkParams j m t q g a c ss sp f0 f1 f2 s f4
  | Pt => mkParams j m t q g a c ss sp f0 f1 f2 f3 s
  end.

(** [argv[i][k]]: a C string ends in a zero character; beyond it the access is out of bounds. *)
Definition char_at (s : str) (k : nat) : outcome Z :=
  if bool_decide (k = length s) then Ok 0%Z else vget s k.
(** [i++; ... argv[i]]: past the last argument [argv] holds a null pointer. *)
Definition next_arg (rest : list str) : outcome (str * list str) :=
  match rest with v :: r => Ok (v, r) | [] => Err NullDeref end.
(** [atoi]: 0 without digits; the value is unspecified when it does not fit. *)
Definition atoi (s : str) : outcome Z :=
  match read_int s with Some z => if fits_int z then Ok z else Err Uninit | None => Ok 0%Z end.

(** The letters of the options. *)
Definition int_option (c : Z) : option int_field :=
  match c with
  | 106 => Some Job | 109 => Some Method | 116 => Some Threads | 113 => Some Samples | 103 => Some Group | 99 => Some Class
  | _ => None
  end%Z.
Definition file_option (c : Z) : option file_field :=
  match c with 48 => Some Net | 49 => Some Ref | 50 => Some Train | 51 => Some Test | 52 => Some Pt | _ => None end%Z.

(** Parameter.cpp L66-72: case 'f', for the string [s] that [argv[i]] points to. *)
Definition file_case {D} (p : params D) (s : str) (rest : list str) : outcome (params D * list str) :=
  c ← char_at s 2;
  match file_option c with
  | Some f => vr ← next_arg rest; Ok (set_file p f (fst vr), snd vr)
  | None => Ok (p, rest)
  end.
(** L42-77, one turn of the loop; [stod] is the library function. There is no [break] between case 's' (115) and case 'f'
    (102), so case 's' goes on with [argv[i]] being the value it has just read. *)
Definition parse_option {D} (stod : str -> outcome D) (p : params D) (a : str) (rest : list str) : outcome (params D * list str) :=
  c ← char_at a 1;
  match int_option c with
  | Some f => vr ← next_arg rest; z ← atoi (fst vr); Ok (set_int p f z, snd vr)
  | None =>
      if bool_decide (c = 104)%Z then Err Exit0 else
      if bool_decide (c = 97)%Z then vr ← next_arg rest; x ← stod (fst vr); Ok (set_alpha p x, snd vr) else
      if bool_decide (c = 115)%Z then
        c2 ← char_at a 2;
        if bool_decide (c2 = 115)%Z then
          vr ← next_arg rest; z ← atoi (fst vr);
          file_case (if bool_decide (z = 0)%Z then clear_struct p else p) (fst vr) (snd vr)
        else if bool_decide (c2 = 112)%Z then
          vr ← next_arg rest; z ← atoi (fst vr);
          file_case (if bool_decide (z = 0)%Z then clear_param p else p) (fst vr) (snd vr)
        else file_case p a rest
      else if bool_decide (c = 102)%Z then file_case p a rest
      else Err Exit0
  end.
(** L39-83 [ParseParameters]; [args] are argv[1], argv[2], ... *)
Fixpoint parse_loop {D} (fuel : nat) (stod : str -> outcome D) (p : params D) (args : list str) : outcome (params D) :=
  match fuel with
  | O => Err OutOfFuel
  | S n =>
      match args with
      | [] => Ok p
      | a :: rest =>
          c ← char_at a 0;
          if bool_decide (c = 45)%Z then r ← parse_option stod p a rest; parse_loop n stod (fst r) (snd r) else Ok p
      end
  end.
Definition parse_parameters {D} (stod : str -> outcome D) (p : params D) (args : list str) : outcome (params D) :=
  q ← parse_loop (S (length args)) stod p args;
  if bool_decide (p_job q < 0)%Z || bool_decide (5 < p_job q)%Z then Err Exit0 else Ok q.
