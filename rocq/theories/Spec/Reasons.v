(** Vocabulary for the reasons a process check gives (C82), for processes built step by step
    (C33) and for results filled piece by piece (C32). *)
From Coq Require Import String Ascii.
From Verif Require Import Model.Common Model.Records Model.Jobs Model.Text Model.Process Spec.Files.
Open Scope string_scope.
Open Scope list_scope.

(** What the text of a check can say. *)
Inductive reason :=
| NoRetcodeFile (rf : path)
| LastFailed (code : Z) (rf : path)
| NoOutput
| OutputExistence
| MissingOutput (o : path)
| Compared (o : path) (ot : Z) (i : path) (it : Z).

Definition reason_log (fmt : Z -> string) (r : reason) : string :=
  (match r with
   | NoRetcodeFile rf => "no retcode file" ++ rf
   | LastFailed code rf => "last retcode is nonzero: " ++ dec_Z code ++ " in " ++ rf
   | NoOutput => "no output"
   | OutputExistence => "output existance"
   | MissingOutput o => "missing output: " ++ o
   | Compared o ot i it =>
       "oldest output " ++ o ++ " t: " ++ fmt ot ++ " " ++ String (ascii_of_nat 10) "" ++
       " latest input " ++ i ++ " t: " ++ fmt it
   end)%string.

(** When it is true of the files. *)
Definition reason_holds (f : fs) (p : process) (r : reason) : Prop :=
  match r with
  | NoRetcodeFile rf => p_retcode p = Some rf /\ f rf = None
  | LastFailed code rf =>
      p_retcode p = Some rf /\ code <> 0%Z /\ exists x, f rf = Some x /\ read_retcode x = code
  | NoOutput => ~ last_run_bad f p /\ p_output p = []
  | OutputExistence => ~ last_run_bad f p /\ p_output p <> [] /\ p_input p = []
  | MissingOutput o => ~ last_run_bad f p /\ p_input p <> [] /\ In o (p_output p) /\ f o = None
  | Compared o ot i it =>
      ~ last_run_bad f p /\ In o (p_output p) /\ In i (p_input p) /\
      (exists x, f o = Some x /\ f_time x = ot) /\ date f i = it /\
      (forall o', In o' (p_output p) -> (ot <= date f o')%Z) /\
      (forall i', In i' (p_input p) -> (date f i' <= it)%Z)
  end.

(** The answer that goes with it. *)
Definition reason_answer (f : fs) (p : process) (r : reason) : Prop :=
  match r with
  | OutputExistence => forall o, In o (p_output p) -> f o <> None
  | Compared _ ot _ it => (ot <= it)%Z
  | _ => True
  end.

(** A process made by derive and then completed with add_input, add_output and
    set_retcode_file. *)
Inductive more := AddInput (p : path) | AddOutput (p : path) | SetRetcodeFile (p : path).
Definition extend (q : process) (m : more) : process :=
  match m with
  | AddInput p => add_input q p
  | AddOutput p => add_output q p
  | SetRetcodeFile p => set_retcode_file q p
  end.
Definition more_inputs (ms : list more) : list path :=
  flat_map (fun m => match m with AddInput p => [p] | _ => [] end) ms.
Definition more_outputs (ms : list more) : list path :=
  flat_map (fun m => match m with AddOutput p => [p] | _ => [] end) ms.
Fixpoint last_retcode_file (ms : list more) : option path :=
  match ms with
  | [] => None
  | m :: r => match last_retcode_file r with
              | Some p => Some p
              | None => match m with SetRetcodeFile p => Some p | _ => None end
              end
  end.

(** A job that fills its result with insert_std ([true]) and insert_err. *)
Definition write (r : run_result) (c : bool * string) : run_result :=
  if fst c then insert_std r (snd c) else insert_err r (snd c).

(** What [int i = 0; is >> i;] makes of a text (C30). *)
Definition white (a : ascii) : Prop := In (nat_of_ascii a) [9; 10; 11; 12; 13; 32].
Fixpoint all_white (s : string) : Prop :=
  match s with EmptyString => True | String a r => white a /\ all_white r end.
Definition is_digit (a : ascii) : Prop := 48 <= nat_of_ascii a <= 57.
Definition starts_with (P : ascii -> Prop) (s : string) : Prop :=
  match s with EmptyString => False | String a _ => P a end.
Inductive sign := Plain | Plus | Minus.
Definition sign_text (g : sign) : string := match g with Plain => "" | Plus => "+" | Minus => "-" end.
(** The nearest int. *)
Definition nearest_int (z i : Z) : Prop :=
  is_int i /\ (is_int z -> i = z) /\ ((z < -2147483648)%Z -> i = (-2147483648)%Z) /\
  ((z > 2147483647)%Z -> i = 2147483647%Z).
