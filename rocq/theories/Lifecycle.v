(** * Lifecycle.v: LifecycleStateMachineUtil *)
From Verif Require Export Sched.

(** configureAppStateMachine: service/LifecycleStateMachineUtil.java:74-86,
    for the five state objects of app [p]. *)
Definition lifecycle_calls (p : apid) : list cop :=
  [ CInit (SApp p UNINIT); CReceives (ELife LStart); CTo (SApp p STARTING);
    CWhen (SApp p STARTING); CReceives (ELife LComplete); CTo (SApp p STARTED);
    CWhen (SApp p STARTING); CReceives (ELife LError); CTo (SApp p STOPPED);
    CWhen (SApp p STARTED); CReceives (ELife LStop); CTo (SApp p STOPPING);
    CWhen (SApp p STARTED); CReceives (ELife LError); CTo (SApp p STOPPED);
    CWhen (SApp p STOPPING); CReceives (ELife LComplete); CTo (SApp p STOPPED);
    CWhen (SApp p STOPPING); CReceives (ELife LError); CTo (SApp p STOPPED);
    CWhen (SApp p STOPPED); CReceives (ELife LStart); CTo (SApp p STARTING);
    CWhen (SApp p STOPPED); CReceives (ELife LStop); CEnds ].

(** Entry actions of the five state objects: service/AbstractAppService.java:75-103.
    (No exit actions.) *)
Definition app_entry_actions (p : apid) (k : appst) : list action :=
  match k with
  | UNINIT => []
  | STARTING => [AHandle (AAppStarting p) (HApp p)]
  | STARTED => [AHandle (AAppStarted p) (HApp p)]
  | STOPPING => [AHandle (AAppStopping p) (HApp p)]
  | STOPPED => [AAppStopped p]
  end.
