(** What config.hpp promises about the parameters of sharg::config (C99). *)
From Verif Require Import Base StrLib Fs Values Validators FormatParse Parser HelpExport HelpSpec.

Inductive kind := AnOption | AFlag | APositional.
Inductive param := PShort | PLong | PDescription | PDefaultMessage | PAdvanced | PHidden | PRequired | PValidator.

(** config.hpp 23-36: the table and the meaning of its marks *)
Inductive mark := CanBeSet | CanBeSetNotIntended | RaisesDesignError.
Definition table (p : param) : mark * mark * mark :=        (* option, flag, positional_option *)
  match p with
  | PShort          => (CanBeSet, CanBeSet, RaisesDesignError)
  | PLong           => (CanBeSet, CanBeSet, RaisesDesignError)
  | PDescription    => (CanBeSet, CanBeSet, CanBeSet)
  | PDefaultMessage => (CanBeSet, RaisesDesignError, RaisesDesignError)
  | PAdvanced       => (CanBeSet, CanBeSet, RaisesDesignError)
  | PHidden         => (CanBeSet, CanBeSet, RaisesDesignError)
  | PRequired       => (CanBeSet, CanBeSet, CanBeSetNotIntended)
  | PValidator      => (CanBeSet, CanBeSetNotIntended, CanBeSet)
  end.
Definition marked (k : kind) (p : param) : mark :=
  let '(o, f, q) := table p in match k with AnOption => o | AFlag => f | APositional => q end.

(** a parameter is set if it differs from its default member initialiser, config.hpp 52-136 *)
Definition is_set (p : param) (c : config) : Prop :=
  match p with
  | PShort => c_short c <> "000"%char | PLong => c_long c <> "" | PDescription => c_desc c <> ""
  | PDefaultMessage => c_default_message c <> "" | PAdvanced => c_advanced c = true | PHidden => c_hidden c = true
  | PRequired => c_required c = true | PValidator => c_validator c <> default_validator \/ c_vhelp c <> ""
  end.
(** two configurations agree on a parameter *)
Definition agree (c c' : config) (p : param) : Prop :=
  match p with
  | PShort => c_short c = c_short c' | PLong => c_long c = c_long c' | PDescription => c_desc c = c_desc c'
  | PDefaultMessage => c_default_message c = c_default_message c' | PAdvanced => c_advanced c = c_advanced c'
  | PHidden => c_hidden c = c_hidden c' | PRequired => c_required c = c_required c'
  | PValidator => c_validator c = c_validator c' /\ c_vhelp c = c_vhelp c'
  end.
Definition differ_in (p : param) (c c' : config) : Prop := forall q, q <> p -> agree c c' q.

(** config.hpp 75 and 25: what may not be set for a kind *)
Definition permitted (k : kind) (c : config) : Prop :=
  (forall p, is_set p c -> marked k p <> RaisesDesignError) /\
  (k = AnOption -> is_set PRequired c -> ~ is_set PDefaultMessage c).

Definition declaration (k : kind) (x : addr) (t : vty) (c : config) : decl :=
  match k with AnOption => DOption x t c | AFlag => DFlag x c | APositional => DPositional x t c end.
Definition declared (k : kind) (x : addr) (t : vty) (c : config) : call :=
  match k with AnOption => CAddOption x t c | AFlag => CAddFlag x c | APositional => CAddPositional x t c end.

(** the parameter has an effect on what the arguments are read as; on some page *)
Definition changes_parsing (k : kind) (p : param) : Prop :=
  exists nd ds1 ds2 x t c c' args vs f, permitted k c /\ permitted k c' /\ differ_in p c c' /\
    parse_args nd (ds1 ++ declaration k x t c :: ds2) args vs f <> parse_args nd (ds1 ++ declaration k x t c' :: ds2) args vs f.
Definition changes_pages (k : kind) (p : param) : Prop :=
  exists e r l1 l2 x t c c', permitted k c /\ permitted k c' /\ differ_in p c c' /\
    page e (with_ops r (l1 ++ OpDecl (declaration k x t c) :: l2)) <> page e (with_ops r (l1 ++ OpDecl (declaration k x t c') :: l2)).

(** which ones do *)
Definition read_for (k : kind) (p : param) : bool :=
  match k, p with
  | AnOption, (PShort | PLong | PRequired | PValidator) | AFlag, (PShort | PLong) | APositional, PValidator => true
  | _, _ => false
  end.
Definition shown_for (k : kind) (p : param) : bool :=
  match k, p with
  | AnOption, _ | AFlag, (PShort | PLong | PDescription | PAdvanced | PHidden) | APositional, (PDescription | PValidator) => true
  | _, _ => false
  end.
