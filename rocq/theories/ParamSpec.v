(** Specification of the command line. *)
From Verif Require Export ParamModel DataSpec.
Local Open Scope nat_scope.

(** An option with its value. *)
Inductive cl_option :=
| IntOpt (f : int_field) (z : Z)
| AlphaOpt (s : str)
| FileOpt (f : file_field) (s : str)
| SaveOpt (param : bool) (s : str).
(** What it sets. *)
Inductive field := FInt (f : int_field) | FAlpha | FFile (f : file_field) | FStruct | FParam.
Definition field_of (o : cl_option) : field :=
  match o with IntOpt f _ => FInt f | AlphaOpt _ => FAlpha | FileOpt f _ => FFile f | SaveOpt true _ => FParam | SaveOpt false _ => FStruct end.
(** Its letters, as documented by PrintHelpInfo (L89-121). *)
Definition int_letter (f : int_field) : Z :=
  match f with Job => 106 | Method => 109 | Threads => 116 | Samples => 113 | Group => 103 | Class => 99 end%Z.
Definition file_letter (f : file_field) : Z := match f with Net => 48 | Ref => 49 | Train => 50 | Test => 51 | Pt => 52 end%Z.
Definition option_name (o : cl_option) : str :=
  match o with
  | IntOpt f _ => [45; int_letter f]
  | AlphaOpt _ => [45; 97]
  | FileOpt f _ => [45; 102; file_letter f]
  | SaveOpt b _ => [45; 115; if b then 112 else 115]
  end%Z.
Definition option_value (o : cl_option) : str :=
  match o with IntOpt _ z => to_string z | AlphaOpt s => s | FileOpt _ s => s | SaveOpt _ s => s end.
Definition command_line (os : list cl_option) : list str := concat ((fun o => [option_name o; option_value o]) <$> os).

(** The value of a field in the parsed parameters. *)
Inductive value (D : Type) := VInt (z : Z) | VAlpha (a : D) | VFile (s : str) | VSave (b : bool).
Arguments VInt {D}. Arguments VAlpha {D}. Arguments VFile {D}. Arguments VSave {D}.
Definition get {D} (p : params D) (f : field) : value D :=
  match f with
  | FInt Job => VInt (p_job p) | FInt Method => VInt (p_method p) | FInt Threads => VInt (p_threads p)
  | FInt Samples => VInt (p_samples p) | FInt Group => VInt (p_group p) | FInt Class => VInt (p_class p)
  | FAlpha => VAlpha (p_alpha p)
  | FFile Net => VFile (p_net p) | FFile Ref => VFile (p_ref p) | FFile Train => VFile (p_train p)
  | FFile Test => VFile (p_test p) | FFile Pt => VFile (p_pt p)
  | FStruct => VSave (p_save_struct p) | FParam => VSave (p_save_param p)
  end.
(** The option asks for this value, given the old one: "-ss 0" and "-sp 0" switch off, other numbers change nothing. *)
Definition asks {D} (stod : str -> outcome D) (o : cl_option) (old v : value D) : Prop :=
  match o with
  | IntOpt _ z => v = VInt z
  | AlphaOpt s => exists a, stod s = Ok a /\ v = VAlpha a
  | FileOpt _ s => v = VFile s
  | SaveOpt _ s => exists z, atoi s = Ok z /\ v = if bool_decide (z = 0)%Z then VSave false else old
  end.
(** The options work one after the other on one field. *)
Inductive outcome_of {D} (stod : str -> outcome D) (f : field) : list cl_option -> value D -> value D -> Prop :=
| oo_nil v : outcome_of stod f [] v v
| oo_other o os v w : field_of o <> f -> outcome_of stod f os v w -> outcome_of stod f (o :: os) v w
| oo_set o os v v' w : field_of o = f -> asks stod o v v' -> outcome_of stod f os v' w -> outcome_of stod f (o :: os) v w.

(** The options that the parser handles as documented: numbers fit an [int], [stod] accepts the value of "-a", and the
    value of "-ss" and "-sp" is a number of at least two characters whose third one is not between '0' and '4'. *)
Definition good_option {D} (stod : str -> outcome D) (o : cl_option) : Prop :=
  match o with
  | IntOpt _ z => (-2147483648 <= z <= 2147483647)%Z
  | AlphaOpt s => exists a, stod s = Ok a
  | FileOpt _ _ => True
  | SaveOpt _ s => (exists z, atoi s = Ok z) /\ 2 <= length s /\ forall c, s !! 2 = Some c -> ~ (48 <= c <= 52)%Z
  end.
