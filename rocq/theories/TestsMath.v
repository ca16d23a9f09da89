(** Tests, not proofs: the assertions of test/test-interval.cpp about functions of the C library, evaluated on the model.  The
    C library is replaced by tables of the values that glibc's functions return at the arguments that occur; an argument that is
    not in the table gives NaN, which makes the test fail. *)
From Coq Require Import List NArith ZArith Bool.
From Flocq Require Import Core BinarySingleNaN.
From Verif Require Import Outcome SetModel Num IntervalModel IntNum FloatNum FloatMath MathModel TestsSet TestsInterval.
Import ListNotations.

Definition cbrt_table : list (float64 * float64) :=
  [ (n_bot, n_bot); (f64 (-1) 0, f64 (-1) 0); (nzero, f64 0 0); (f64 1 0, f64 1 0); (n_top, n_top)
  ; (f64 (-3) (-1), f64 (-1288833659052221) (-50)); (f64 (-3602879701896397) (-55), f64 (-4180771548293113) (-53))
  ; (f64 3602879701896397 (-55), f64 4180771548293113 (-53)); (f64 1 1, f64 1418544992705699 (-50)) ].
Definition log_table : list (float64 * float64) :=
  [ (f64 0 0, n_bot); (f64 3602879701896397 (-53), f64 (-8253213197262967) (-53))
  ; (f64 3152519739159347 (-52), f64 (-401580286153717) (-50)); (f64 1 0, f64 0 0)
  ; (f64 3152519739159347 (-51), f64 6061344957871247 (-54)); (f64 1 1, f64 6243314768165359 (-53))
  ; (f64 2589569785738035 (-50), f64 7502178431368041 (-53)); (n_top, n_top)
  ; (f64 3602879701896397 (-55), f64 (-5184960683398421) (-51)) ].
Definition exp_table : list (float64 * float64) :=
  [ (n_top, n_top); (f64 0 0, f64 1 0); (n_bot, f64 0 0); (f64 8253213197262967 (-52), f64 7036874417766399 (-50))
  ; (f64 3301285278905187 (-51), f64 4877573214605153 (-50)); (f64 5364588578220929 (-52), f64 3705286503073015 (-50))
  ; (f64 8253213197262967 (-53), f64 5 (-1)); (f64 5777249238084077 (-53), f64 8552986382948331 (-52))
  ; (f64 8253213197262967 (-54), f64 3560408122994089 (-51)); (f64 1375535532877161 (-52), f64 6112325083312365 (-52))
  ; (f64 (-1375535532877161) (-52), f64 3318280576899603 (-52)); (f64 (-8253213197262967) (-54), f64 5696652996790543 (-53))
  ; (f64 (-5777249238084077) (-53), f64 4742766723933459 (-53)); (f64 (-8253213197262967) (-53), f64 3602879701896397 (-53))
  ; (f64 (-5364588578220929) (-52), f64 1368477821271733 (-52)); (f64 (-3301285278905187) (-51), f64 4158299365536753 (-54))
  ; (f64 (-8253213197262967) (-52), f64 1441151880758559 (-53)); (f64 401580286153717 (-49), f64 2297754911923723 (-50))
  ; (f64 2570113831383789 (-52), f64 3984491593083757 (-51)); (f64 4176434975998657 (-53), f64 7160318200006973 (-52))
  ; (f64 401580286153717 (-50), f64 6433713753386423 (-52)); (f64 2248849602460815 (-53), f64 90325666018571 (-46))
  ; (f64 401580286153717 (-51), f64 1345707779905233 (-50)); (f64 8567046104612629 (-56), f64 1268042383673159 (-50))
  ; (f64 (-8567046104612629) (-56), f64 7997528262777497 (-53)); (f64 (-401580286153717) (-51), f64 941995445933663 (-50))
  ; (f64 (-2248849602460815) (-53), f64 438569489750427 (-49)); (f64 (-401580286153717) (-50), f64 3152519739159347 (-52))
  ; (f64 (-4176434975998657) (-53), f64 1416306443171193 (-51)); (f64 (-2570113831383789) (-52), f64 2545169079896879 (-52))
  ; (f64 (-401580286153717) (-49), f64 8827055269646171 (-54)); (f64 (-6061344957871247) (-53), f64 4595509823847445 (-53))
  ; (f64 (-2424537983148499) (-52), f64 1314392044370527 (-51)); (f64 (-7879748445232621) (-54), f64 2907992808314415 (-52))
  ; (f64 (-6061344957871247) (-54), f64 6433713753386423 (-53)); (f64 (-8485882941019745) (-55), f64 1779263025606759 (-51))
  ; (f64 (-6061344957871247) (-55), f64 7612472773331873 (-53)); (f64 (-4040896638580831) (-55), f64 8051567255132143 (-53))
  ; (f64 4040896638580831 (-55), f64 5038127102701273 (-52)); (f64 6061344957871247 (-55), f64 5328730941332311 (-52))
  ; (f64 8485882941019745 (-55), f64 5699665904296253 (-52)); (f64 6061344957871247 (-54), f64 3152519739159347 (-51))
  ; (f64 7879748445232621 (-54), f64 6974711060378495 (-52)); (f64 2424537983148499 (-52), f64 3857754938969727 (-51))
  ; (f64 6061344957871247 (-53), f64 2206763817411543 (-50)); (f64 (-6243314768165359) (-52), f64 1 (-2))
  ; (f64 (-4994651814532287) (-52), f64 5942535335269229 (-54)); (f64 (-8116309198614967) (-53), f64 7316119179121469 (-54))
  ; (f64 (-6243314768165359) (-53), f64 1 (-1)); (f64 (-4370320337715751) (-53), f64 5544581521179433 (-53))
  ; (f64 (-6243314768165359) (-54), f64 6369051672525773 (-53)); (f64 (-8324419690887145) (-55), f64 7149018786131517 (-53))
  ; (f64 8324419690887145 (-55), f64 5674179970822795 (-52)); (f64 6243314768165359 (-54), f64 1592262918131443 (-50))
  ; (f64 4370320337715751 (-53), f64 7316119179121469 (-52)); (f64 6243314768165359 (-53), f64 1 1)
  ; (f64 8116309198614967 (-53), f64 5544581521179433 (-51)); (f64 4994651814532287 (-52), f64 1706545141033879 (-49))
  ; (f64 6243314768165359 (-52), f64 1 2); (f64 (-7502178431368041) (-52), f64 6810736676552737 (-55))
  ; (f64 (-6001742745094433) (-52), f64 2375883998361789 (-53)); (f64 (-4876415980389227) (-52), f64 762576806170799 (-51))
  ; (f64 (-7502178431368041) (-53), f64 3916173589017823 (-53)); (f64 (-1312881225489407) (-51), f64 1256956631713841 (-51))
  ; (f64 (-7502178431368041) (-54), f64 371198206785081 (-49)); (f64 (-2500726143789347) (-53), f64 3411802076526129 (-52))
  ; (f64 2500726143789347 (-53), f64 1486194769561711 (-50)); (f64 7502178431368041 (-54), f64 6830047004845489 (-52))
  ; (f64 1312881225489407 (-51), f64 8068062609287051 (-52)); (f64 7502178431368041 (-53), f64 2589569785738035 (-50))
  ; (f64 4876415980389227 (-52), f64 6649300581766217 (-51)); (f64 6001742745094433 (-52), f64 1067098057903749 (-48))
  ; (f64 7502178431368041 (-52), f64 744501313399685 (-47)); (f64 (-5626633823526031) (-51), f64 2961189859370755 (-55))
  ; (f64 5626633823526031 (-51), f64 6849412083277101 (-49)); (f64 (-4682486076124019) (-51), f64 4503599627370497 (-55))
  ; (f64 4682486076124019 (-51), f64 4503599627370495 (-49)); (f64 (-4546008718403435) (-52), f64 6565014034067779 (-54))
  ; (f64 4546008718403435 (-52), f64 96545917011755 (-45)); (f64 1204740858461151 (-50), f64 1641253508516945 (-49))
  ; (f64 (-1204740858461151) (-50), f64 6178938688752319 (-54)); (f64 6189909897947225 (-51), f64 8796093022207997 (-49))
  ; (f64 (-6189909897947225) (-51), f64 4611686018427389 (-56)); (f64 (-1) 0, f64 828390857088487 (-51))
  ; (f64 1 0, f64 6121026514868073 (-51)); (f64 (-3) (-1), f64 8039111248796701 (-55))
  ; (f64 (-3602879701896397) (-55), f64 4075025458697629 (-52)); (f64 3602879701896397 (-55), f64 1244311833706549 (-50))
  ; (f64 1 1, f64 4159668786720471 (-49)) ].
Definition pow_table : list (float64 * float64 * float64) :=
  [ (f64 0 0, f64 (-1) 1, n_top); (f64 0 0, f64 (-3602879701896397) (-51), n_top); (f64 0 0, f64 (-5854679515581645) (-52), n_top)
  ; (f64 0 0, f64 (-1) 0, n_top); (f64 0 0, f64 (-3152519739159347) (-52), n_top); (f64 0 0, f64 (-1) (-1), n_top)
  ; (f64 0 0, f64 (-6004799503160661) (-54), n_top); (f64 0 0, f64 0 0, f64 1 0); (f64 0 0, f64 6004799503160661 (-54), f64 0 0)
  ; (f64 0 0, f64 1 (-1), f64 0 0); (f64 0 0, f64 3152519739159347 (-52), f64 0 0); (f64 0 0, f64 1 0, f64 0 0)
  ; (f64 0 0, f64 5854679515581645 (-52), f64 0 0); (f64 0 0, f64 3602879701896397 (-51), f64 0 0); (f64 0 0, f64 1 1, f64 0 0)
  ; (f64 3602879701896397 (-53), f64 (-1) 1, f64 7036874417766399 (-50))
  ; (f64 3602879701896397 (-53), f64 (-3602879701896397) (-51), f64 4877573214605153 (-50))
  ; (f64 3602879701896397 (-53), f64 (-5854679515581645) (-52), f64 7410573006146029 (-51))
  ; (f64 3602879701896397 (-53), f64 (-1) 0, f64 5 (-1))
  ; (f64 3602879701896397 (-53), f64 (-3152519739159347) (-52), f64 4276493191474165 (-51))
  ; (f64 3602879701896397 (-53), f64 (-1) (-1), f64 3560408122994089 (-51))
  ; (f64 3602879701896397 (-53), f64 (-6004799503160661) (-54), f64 6112325083312365 (-52))
  ; (f64 3602879701896397 (-53), f64 0 0, f64 1 0)
  ; (f64 3602879701896397 (-53), f64 6004799503160661 (-54), f64 3318280576899603 (-52))
  ; (f64 3602879701896397 (-53), f64 1 (-1), f64 5696652996790543 (-53))
  ; (f64 3602879701896397 (-53), f64 3152519739159347 (-52), f64 4742766723933459 (-53))
  ; (f64 3602879701896397 (-53), f64 1 0, f64 3602879701896397 (-53))
  ; (f64 3602879701896397 (-53), f64 5854679515581645 (-52), f64 1368477821271733 (-52))
  ; (f64 3602879701896397 (-53), f64 3602879701896397 (-51), f64 4158299365536753 (-54))
  ; (f64 3602879701896397 (-53), f64 1 1, f64 1441151880758559 (-53))
  ; (f64 3152519739159347 (-52), f64 (-1) 1, f64 4595509823847445 (-51))
  ; (f64 3152519739159347 (-52), f64 (-3602879701896397) (-51), f64 3984491593083757 (-51))
  ; (f64 3152519739159347 (-52), f64 (-5854679515581645) (-52), f64 7160318200006973 (-52))
  ; (f64 3152519739159347 (-52), f64 (-1) 0, f64 6433713753386423 (-52))
  ; (f64 3152519739159347 (-52), f64 (-3152519739159347) (-52), f64 90325666018571 (-46))
  ; (f64 3152519739159347 (-52), f64 (-1) (-1), f64 1345707779905233 (-50))
  ; (f64 3152519739159347 (-52), f64 (-6004799503160661) (-54), f64 1268042383673159 (-50))
  ; (f64 3152519739159347 (-52), f64 0 0, f64 1 0)
  ; (f64 3152519739159347 (-52), f64 6004799503160661 (-54), f64 7997528262777497 (-53))
  ; (f64 3152519739159347 (-52), f64 1 (-1), f64 941995445933663 (-50))
  ; (f64 3152519739159347 (-52), f64 3152519739159347 (-52), f64 438569489750427 (-49))
  ; (f64 3152519739159347 (-52), f64 1 0, f64 3152519739159347 (-52))
  ; (f64 3152519739159347 (-52), f64 5854679515581645 (-52), f64 5665225772684773 (-53))
  ; (f64 3152519739159347 (-52), f64 3602879701896397 (-51), f64 2545169079896879 (-52))
  ; (f64 3152519739159347 (-52), f64 1 1, f64 8827055269646171 (-54)); (f64 1 0, f64 (-1) 1, f64 1 0)
  ; (f64 1 0, f64 (-3602879701896397) (-51), f64 1 0); (f64 1 0, f64 (-5854679515581645) (-52), f64 1 0)
  ; (f64 1 0, f64 (-1) 0, f64 1 0); (f64 1 0, f64 (-3152519739159347) (-52), f64 1 0); (f64 1 0, f64 (-1) (-1), f64 1 0)
  ; (f64 1 0, f64 (-6004799503160661) (-54), f64 1 0); (f64 1 0, f64 0 0, f64 1 0); (f64 1 0, f64 6004799503160661 (-54), f64 1 0)
  ; (f64 1 0, f64 1 (-1), f64 1 0); (f64 1 0, f64 3152519739159347 (-52), f64 1 0); (f64 1 0, f64 1 0, f64 1 0)
  ; (f64 1 0, f64 5854679515581645 (-52), f64 1 0); (f64 1 0, f64 3602879701896397 (-51), f64 1 0); (f64 1 0, f64 1 1, f64 1 0)
  ; (f64 3152519739159347 (-51), f64 (-1) 1, f64 4595509823847445 (-53))
  ; (f64 3152519739159347 (-51), f64 (-3602879701896397) (-51), f64 5257568177482109 (-53))
  ; (f64 3152519739159347 (-51), f64 (-5854679515581645) (-52), f64 2907992808314415 (-52))
  ; (f64 3152519739159347 (-51), f64 (-1) 0, f64 6433713753386423 (-53))
  ; (f64 3152519739159347 (-51), f64 (-3152519739159347) (-52), f64 1779263025606759 (-51))
  ; (f64 3152519739159347 (-51), f64 (-1) (-1), f64 7612472773331873 (-53))
  ; (f64 3152519739159347 (-51), f64 (-6004799503160661) (-54), f64 8051567255132143 (-53))
  ; (f64 3152519739159347 (-51), f64 0 0, f64 1 0)
  ; (f64 3152519739159347 (-51), f64 6004799503160661 (-54), f64 5038127102701273 (-52))
  ; (f64 3152519739159347 (-51), f64 1 (-1), f64 5328730941332311 (-52))
  ; (f64 3152519739159347 (-51), f64 3152519739159347 (-52), f64 5699665904296253 (-52))
  ; (f64 3152519739159347 (-51), f64 1 0, f64 3152519739159347 (-51))
  ; (f64 3152519739159347 (-51), f64 5854679515581645 (-52), f64 6974711060378495 (-52))
  ; (f64 3152519739159347 (-51), f64 3602879701896397 (-51), f64 3857754938969727 (-51))
  ; (f64 3152519739159347 (-51), f64 1 1, f64 8827055269646171 (-52)); (f64 1 1, f64 (-1) 1, f64 1 (-2))
  ; (f64 1 1, f64 (-3602879701896397) (-51), f64 1485633833817307 (-52))
  ; (f64 1 1, f64 (-5854679515581645) (-52), f64 7316119179121469 (-54)); (f64 1 1, f64 (-1) 0, f64 1 (-1))
  ; (f64 1 1, f64 (-3152519739159347) (-52), f64 5544581521179433 (-53)); (f64 1 1, f64 (-1) (-1), f64 6369051672525773 (-53))
  ; (f64 1 1, f64 (-6004799503160661) (-54), f64 7149018786131517 (-53)); (f64 1 1, f64 0 0, f64 1 0)
  ; (f64 1 1, f64 6004799503160661 (-54), f64 5674179970822795 (-52)); (f64 1 1, f64 1 (-1), f64 6369051672525773 (-52))
  ; (f64 1 1, f64 3152519739159347 (-52), f64 7316119179121469 (-52)); (f64 1 1, f64 1 0, f64 1 1)
  ; (f64 1 1, f64 5854679515581645 (-52), f64 5544581521179433 (-51))
  ; (f64 1 1, f64 3602879701896397 (-51), f64 6826180564135517 (-51)); (f64 1 1, f64 1 1, f64 1 2)
  ; (f64 2589569785738035 (-50), f64 (-1) 1, f64 212835521142273 (-50))
  ; (f64 2589569785738035 (-50), f64 (-3602879701896397) (-51), f64 4751767996723577 (-54))
  ; (f64 2589569785738035 (-50), f64 (-5854679515581645) (-52), f64 762576806170799 (-51))
  ; (f64 2589569785738035 (-50), f64 (-1) 0, f64 3916173589017823 (-53))
  ; (f64 2589569785738035 (-50), f64 (-3152519739159347) (-52), f64 1256956631713841 (-51))
  ; (f64 2589569785738035 (-50), f64 (-1) (-1), f64 5939171308561295 (-53))
  ; (f64 2589569785738035 (-50), f64 (-6004799503160661) (-54), f64 3411802076526129 (-52))
  ; (f64 2589569785738035 (-50), f64 0 0, f64 1 0)
  ; (f64 2589569785738035 (-50), f64 6004799503160661 (-54), f64 1486194769561711 (-50))
  ; (f64 2589569785738035 (-50), f64 1 (-1), f64 6830047004845489 (-52))
  ; (f64 2589569785738035 (-50), f64 3152519739159347 (-52), f64 2017015652321763 (-50))
  ; (f64 2589569785738035 (-50), f64 1 0, f64 2589569785738035 (-50))
  ; (f64 2589569785738035 (-50), f64 5854679515581645 (-52), f64 6649300581766217 (-51))
  ; (f64 2589569785738035 (-50), f64 3602879701896397 (-51), f64 8536784463229993 (-51))
  ; (f64 2589569785738035 (-50), f64 1 1, f64 744501313399685 (-47))
  ; (f64 (-2589569785738035) (-50), f64 (-3) 0, f64 (-2961189859370755) (-55))
  ; (f64 (-2589569785738035) (-50), f64 (-1) 1, f64 212835521142273 (-50))
  ; (f64 (-2589569785738035) (-50), f64 (-1) 0, f64 (-3916173589017823) (-53)); (f64 (-2589569785738035) (-50), f64 0 0, f64 1 0)
  ; (f64 (-2589569785738035) (-50), f64 1 0, f64 (-2589569785738035) (-50))
  ; (f64 (-2589569785738035) (-50), f64 1 1, f64 744501313399685 (-47))
  ; (f64 (-2589569785738035) (-50), f64 3 0, f64 (-3424706041638551) (-48)); (f64 (-1) 1, f64 (-3) 0, f64 (-1) (-3))
  ; (f64 (-1) 1, f64 (-1) 1, f64 1 (-2)); (f64 (-1) 1, f64 (-1) 0, f64 (-1) (-1)); (f64 (-1) 1, f64 0 0, f64 1 0)
  ; (f64 (-1) 1, f64 1 0, f64 (-1) 1); (f64 (-1) 1, f64 1 1, f64 1 2); (f64 (-1) 1, f64 3 0, f64 (-1) 3)
  ; (f64 (-3152519739159347) (-51), f64 (-3) 0, f64 (-1641253508516945) (-52))
  ; (f64 (-3152519739159347) (-51), f64 (-1) 1, f64 4595509823847445 (-53))
  ; (f64 (-3152519739159347) (-51), f64 (-1) 0, f64 (-6433713753386423) (-53)); (f64 (-3152519739159347) (-51), f64 0 0, f64 1 0)
  ; (f64 (-3152519739159347) (-51), f64 1 0, f64 (-3152519739159347) (-51))
  ; (f64 (-3152519739159347) (-51), f64 1 1, f64 8827055269646171 (-52))
  ; (f64 (-3152519739159347) (-51), f64 3 0, f64 (-6178938688752319) (-51)); (f64 (-1) 0, f64 (-3) 0, f64 (-1) 0)
  ; (f64 (-1) 0, f64 (-1) 1, f64 1 0); (f64 (-1) 0, f64 (-1) 0, f64 (-1) 0); (f64 (-1) 0, f64 0 0, f64 1 0)
  ; (f64 (-1) 0, f64 1 0, f64 (-1) 0); (f64 (-1) 0, f64 1 1, f64 1 0); (f64 (-1) 0, f64 3 0, f64 (-1) 0)
  ; (f64 (-3152519739159347) (-52), f64 (-3) 0, f64 (-1641253508516945) (-49))
  ; (f64 (-3152519739159347) (-52), f64 (-1) 1, f64 4595509823847445 (-51))
  ; (f64 (-3152519739159347) (-52), f64 (-1) 0, f64 (-6433713753386423) (-52)); (f64 (-3152519739159347) (-52), f64 0 0, f64 1 0)
  ; (f64 (-3152519739159347) (-52), f64 1 0, f64 (-3152519739159347) (-52))
  ; (f64 (-3152519739159347) (-52), f64 1 1, f64 8827055269646171 (-54))
  ; (f64 (-3152519739159347) (-52), f64 3 0, f64 (-6178938688752319) (-54))
  ; (f64 (-3602879701896397) (-53), f64 (-3) 0, f64 (-8796093022207999) (-49))
  ; (f64 (-3602879701896397) (-53), f64 (-1) 1, f64 7036874417766399 (-50))
  ; (f64 (-3602879701896397) (-53), f64 (-1) 0, f64 (-5) (-1)); (f64 (-3602879701896397) (-53), f64 0 0, f64 1 0)
  ; (f64 (-3602879701896397) (-53), f64 1 0, f64 (-3602879701896397) (-53))
  ; (f64 (-3602879701896397) (-53), f64 1 1, f64 1441151880758559 (-53))
  ; (f64 (-3602879701896397) (-53), f64 3 0, f64 (-4611686018427389) (-56)); (f64 0 0, f64 (-3) 0, n_top); (f64 0 0, f64 3 0, f64 0 0)
  ; (f64 3602879701896397 (-53), f64 (-3) 0, f64 8796093022207999 (-49))
  ; (f64 3602879701896397 (-53), f64 3 0, f64 4611686018427389 (-56))
  ; (f64 3152519739159347 (-52), f64 (-3) 0, f64 1641253508516945 (-49))
  ; (f64 3152519739159347 (-52), f64 3 0, f64 6178938688752319 (-54)); (f64 1 0, f64 (-3) 0, f64 1 0); (f64 1 0, f64 3 0, f64 1 0)
  ; (f64 3152519739159347 (-51), f64 (-3) 0, f64 1641253508516945 (-52))
  ; (f64 3152519739159347 (-51), f64 3 0, f64 6178938688752319 (-51)); (f64 1 1, f64 (-3) 0, f64 1 (-3)); (f64 1 1, f64 3 0, f64 1 3)
  ; (f64 2589569785738035 (-50), f64 (-3) 0, f64 2961189859370755 (-55))
  ; (f64 2589569785738035 (-50), f64 3 0, f64 3424706041638551 (-48)) ].
Definition cos_table : list (float64 * float64) :=
  [ (f64 (-7) 0, f64 6790547823468567 (-53)); (f64 (-100882699483741) (-47), f64 3395273911734283 (-52))
  ; (f64 (-1287810516938519) (-49), f64 (-2958804601177349) (-52)); (f64 0 0, f64 1 0)
  ; (f64 (-884279719003555) (-49), f64 4967757600021511 (-106)); (f64 39854788871587 (-47), f64 4324222545170811 (-52))
  ; (f64 (-724860563517207) (-49), f64 5033502134280893 (-54)); (f64 180592277226915 (-47), f64 2555001825502575 (-53))
  ; (f64 (-161910610095895) (-49), f64 8637222012098867 (-53)); (f64 884279719003555 (-49), f64 4967757600021511 (-106))
  ; (f64 321329765582243 (-47), f64 (-5887498334708927) (-53)); (f64 401039343325417 (-49), f64 426041929482731 (-49))
  ; (f64 884279719003555 (-48), f64 (-1) 0); (f64 462067253937571 (-47), f64 (-8917059677578707) (-53))
  ; (f64 963989296746729 (-49), f64 (-5084384125703509) (-55)); (f64 602804742292899 (-47), f64 (-7496634952020489) (-54))
  ; (f64 1526939250168041 (-49), f64 (-8190223105242181) (-53)); (f64 2652839157010665 (-49), f64 (-3725818200016133) (-104))
  ; (f64 5329092896422373 (-50), f64 2996850519847699 (-57)); (f64 3560533458415263 (-50), f64 (-1125656446963565) (-50))
  ; (f64 743542230648227 (-47), f64 2433305263375173 (-52)); (f64 2089889203589353 (-49), f64 (-7579296827247855) (-53))
  ; (f64 6189958033024885 (-50), f64 6369051672525771 (-53)); (f64 4421398595017775 (-50), f64 (-3184525836262887) (-52))
  ; (f64 813910974825891 (-47), f64 7904560997432655 (-53)); (f64 2371364180300009 (-49), f64 (-8636562708039155) (-54))
  ; (f64 884279719003555 (-47), f64 1 0); (f64 954648463181219 (-47), f64 7904560997432657 (-53))
  ; (f64 2934314133721321 (-49), f64 8636562708039149 (-54)); (f64 7958517471031995 (-50), f64 3184525836262887 (-52))
  ; (f64 1025017207358883 (-47), f64 4866610526750349 (-53)); (f64 3215789110431977 (-49), f64 7579296827247853 (-53))
  ; (f64 8819382607634507 (-50), f64 5993701039695539 (-58)); (f64 7050823169627397 (-50), f64 1125656446963565 (-50))
  ; (f64 4421398595017775 (-49), f64 6209697000026889 (-104)); (f64 1165754695714211 (-47), f64 (-7496634952020481) (-54))
  ; (f64 3778739063853289 (-49), f64 8190223105242183 (-53)); (f64 1306492184069539 (-47), f64 (-4458529838789353) (-52))
  ; (f64 4341689017274601 (-49), f64 2542192062851761 (-54)); (f64 2652839157010665 (-48), f64 (-1) 0)
  ; (f64 1447229672424867 (-47), f64 (-2943749167354465) (-52)); (f64 4904638970695913 (-49), f64 (-6816670871723693) (-53))
  ; (f64 6189958033024885 (-49), f64 (-2173393950009411) (-102)); (f64 1587967160780195 (-47), f64 5110003651005141 (-54))
  ; (f64 5467588924117225 (-49), f64 (-2159305503024717) (-51)); (f64 1728704649135523 (-47), f64 8648445090341621 (-53))
  ; (f64 6030538877538537 (-49), f64 (-5033502134280899) (-54)); (f64 884279719003555 (-46), f64 1 0)
  ; (f64 1869442137490851 (-47), f64 6790547823468569 (-53)); (f64 6593488830959849 (-49), f64 5917609202354695 (-53))
  ; (f64 (-884279719003555) (-47), f64 1 0); (f64 (-3) 1, f64 8648445090341621 (-53)); (f64 (-5) 0, f64 5110003651005145 (-54))
  ; (f64 (-2652839157010665) (-49), f64 (-3725818200016133) (-104)); (f64 (-1) 2, f64 (-5887498334708929) (-53))
  ; (f64 (-884279719003555) (-48), f64 (-1) 0); (f64 (-3) 0, f64 (-4458529838789353) (-52))
  ; (f64 (-1) 1, f64 (-7496634952020485) (-54)); (f64 (-6980579422424269) (-52), f64 1498425259923851 (-56))
  ; (f64 (-1) 0, f64 1216652631687587 (-51)); (f64 (-884279719003555) (-50), f64 6369051672525773 (-53))
  ; (f64 (-1) (-1), f64 494035062339541 (-49)); (f64 1 (-1), f64 494035062339541 (-49))
  ; (f64 884279719003555 (-50), f64 6369051672525773 (-53)); (f64 1 0, f64 1216652631687587 (-51))
  ; (f64 6980579422424269 (-52), f64 1498425259923851 (-56)); (f64 1 1, f64 (-7496634952020485) (-54))
  ; (f64 3 0, f64 (-4458529838789353) (-52)); (f64 1 2, f64 (-5887498334708929) (-53)); (f64 5 0, f64 5110003651005145 (-54))
  ; (f64 3 1, f64 8648445090341621 (-53)); (f64 7 0, f64 6790547823468567 (-53))
  ; (f64 (-3513704293613177) (-50), f64 (-1125656446963565) (-50)); (f64 (-1447229672424867) (-49), f64 (-3789648413623927) (-52))
  ; (f64 (-2652839157010665) (-50), f64 (-1592262918131443) (-51)); (f64 (-1165754695714211) (-49), f64 (-8636562708039151) (-54))
  ; (f64 (-602804742292899) (-49), f64 8636562708039153 (-54)); (f64 (-321329765582243) (-49), f64 3789648413623927 (-52))
  ; (f64 (-93658329604171) (-52), f64 1125656446963565 (-50)); (f64 241620187839069 (-49), f64 4095111552621091 (-52))
  ; (f64 804570141260381 (-49), f64 5084384125703513 (-55)); (f64 1367520094681693 (-49), f64 (-6816670871723695) (-53))
  ; (f64 1930470048103005 (-49), f64 (-8637222012098867) (-53)); (f64 2493420001524317 (-49), f64 (-5033502134280895) (-54))
  ; (f64 3056369954945629 (-49), f64 5917609202354697 (-53)); (f64 (-1745144855606067) (-50), f64 1498425259923867 (-56))
  ; (f64 (-4503599627370495) (-52), f64 4866610526750349 (-53)); (f64 (-3537118876014219) (-52), f64 3184525836262887 (-52))
  ; (f64 (-2251799813685247) (-52), f64 7904560997432657 (-53)); (f64 1 (-52), f64 1 0)
  ; (f64 2251799813685249 (-52), f64 7904560997432655 (-53)); (f64 3537118876014221 (-52), f64 6369051672525771 (-53))
  ; (f64 4503599627370497 (-52), f64 2433305263375173 (-52)); (f64 3490289711212135 (-51), f64 1498425259923835 (-56))
  ; (f64 7074237752028441 (-52), f64 (-1630830113682559) (-103)); (f64 (-221069929750889) (-48), f64 6369051672525767 (-53))
  ; (f64 (-562949953421313) (-50), f64 1976140249358163 (-51)); (f64 (-1) (-50), f64 1 0)
  ; (f64 562949953421311 (-50), f64 7904560997432659 (-53)); (f64 442139859501777 (-49), f64 3184525836262889 (-52))
  ; (f64 1125899906842623 (-50), f64 2433305263375177 (-52)); (f64 6980579422424265 (-52), f64 1498425259923915 (-56))
  ; (f64 1768559438007109 (-50), f64 75220069958935 (-96)); (f64 2251799813685247 (-50), f64 (-3748317476010235) (-53))
  ; (f64 3377699720527871 (-50), f64 (-8917059677578705) (-53)); (f64 3537118876014219 (-50), f64 (-1) 0)
  ; (f64 4503599627370495 (-50), f64 (-5887498334708935) (-53)); (f64 5305678314021329 (-50), f64 (-5435054177374529) (-102))
  ; (f64 5629499534213119 (-50), f64 2555001825502565 (-53)); (f64 6755399441055743 (-50), f64 8648445090341619 (-53))
  ; (f64 7074237752028439 (-50), f64 1 0); (f64 7881299347898367 (-50), f64 6790547823468573 (-53))
  ; (f64 221069929750889 (-48), f64 6369051672525767 (-53)); (f64 1125899906842625 (-50), f64 4866610526750341 (-53))
  ; (f64 (-642659531164487) (-50), f64 3789648413623925 (-52)); (f64 6980579422424273 (-52), f64 1498425259923787 (-56))
  ; (f64 (-93658329604175) (-52), f64 1125656446963565 (-50)); (f64 1768559438007111 (-50), f64 (-8386229554738303) (-103))
  ; (f64 2251799813685249 (-50), f64 (-7496634952020499) (-54)); (f64 483240375678137 (-50), f64 8190223105242185 (-53))
  ; (f64 3377699720527873 (-50), f64 (-2229264919394677) (-51)); (f64 1609140282520761 (-50), f64 5084384125703545 (-55))
  ; (f64 3537118876014221 (-50), f64 (-1) 0); (f64 4503599627370497 (-50), f64 (-5887498334708923) (-53))
  ; (f64 2735040189363385 (-50), f64 (-3408335435861845) (-52)); (f64 5305678314021331 (-50), f64 7144290154732925 (-103))
  ; (f64 5629499534213121 (-50), f64 5110003651005161 (-54)); (f64 3860940096206009 (-50), f64 (-8637222012098869) (-53))
  ; (f64 6755399441055745 (-50), f64 1081055636292703 (-50)); (f64 4986840003048633 (-50), f64 (-5033502134280911) (-54))
  ; (f64 7074237752028441 (-50), f64 1 0); (f64 7881299347898369 (-50), f64 3395273911734281 (-52))
  ; (f64 6112739909891257 (-50), f64 5917609202354691 (-53)); (f64 436286213901517 (-48), f64 1498425259923803 (-56))
  ; (f64 (-5853645600261) (-48), f64 1125656446963565 (-50)); (f64 7074237752028443 (-52), f64 (-6134429741053055) (-103))
  ; (f64 (-5) (-52), f64 1 0); (f64 1932961502712547 (-52), f64 4095111552621093 (-52))
  ; (f64 6436561130083043 (-52), f64 5084384125703553 (-55)); (f64 7074237752028435 (-52), f64 92812256003351 (-96))
  ; (f64 (-321329765582243) (-47), f64 (-5887498334708927) (-53)); (f64 (-180592277226915) (-47), f64 2555001825502575 (-53))
  ; (f64 (-39854788871587) (-47), f64 4324222545170811 (-52)); (f64 100882699483741 (-47), f64 3395273911734283 (-52))
  ; (f64 (-1606648827911215) (-49), f64 (-4318611006049433) (-52)); (f64 (-1043698874489903) (-49), f64 (-5033502134280891) (-54))
  ; (f64 (-480748921068591) (-49), f64 2958804601177349 (-52)) ].
Definition sin_table : list (float64 * float64) :=
  [ (f64 (-7) 0, f64 (-739701150294337) (-50)); (f64 (-884279719003555) (-47), f64 4967757600021511 (-104))
  ; (f64 (-3) 1, f64 78648470848139 (-48)); (f64 (-5) 0, f64 8637222012098867 (-53)); (f64 (-2652839157010665) (-49), f64 1 0)
  ; (f64 (-1) 2, f64 3408335435861847 (-52)); (f64 (-884279719003555) (-48), f64 (-4967757600021511) (-105))
  ; (f64 (-3) 0, f64 (-5084384125703515) (-55)); (f64 (-1) 1, f64 (-4095111552621091) (-52))
  ; (f64 (-884279719003555) (-49), f64 (-1) 0); (f64 (-6980579422424269) (-52), f64 (-1125656446963565) (-50))
  ; (f64 (-1) 0, f64 (-3789648413623927) (-52)); (f64 (-884279719003555) (-50), f64 (-1592262918131443) (-51))
  ; (f64 (-1) (-1), f64 (-539785169252447) (-50)); (f64 0 0, f64 0 0); (f64 1 (-1), f64 539785169252447 (-50))
  ; (f64 884279719003555 (-50), f64 1592262918131443 (-51)); (f64 1 0, f64 3789648413623927 (-52))
  ; (f64 6980579422424269 (-52), f64 1125656446963565 (-50)); (f64 884279719003555 (-49), f64 1 0)
  ; (f64 1 1, f64 4095111552621091 (-52)); (f64 3 0, f64 5084384125703515 (-55))
  ; (f64 884279719003555 (-48), f64 4967757600021511 (-105)); (f64 1 2, f64 (-3408335435861847) (-52))
  ; (f64 2652839157010665 (-49), f64 (-1) 0); (f64 5 0, f64 (-8637222012098867) (-53)); (f64 3 1, f64 (-78648470848139) (-48))
  ; (f64 884279719003555 (-47), f64 (-4967757600021511) (-104)); (f64 7 0, f64 739701150294337 (-50)) ].
Definition tan_table : list (float64 * float64) :=
  [ (f64 (-7) 0, f64 (-7849305620540025) (-53)); (f64 (-884279719003555) (-47), f64 4967757600021511 (-104))
  ; (f64 (-3) 1, f64 2621150750165727 (-53)); (f64 (-5) 0, f64 7612243061226247 (-51))
  ; (f64 (-2652839157010665) (-49), f64 (-5443746451065123) 0); (f64 (-1) 2, f64 (-5214363495751187) (-52))
  ; (f64 (-884279719003555) (-48), f64 4967757600021511 (-105)); (f64 (-3) 0, f64 5135780466178159 (-55))
  ; (f64 (-1) 1, f64 615034044623391 (-48)); (f64 (-884279719003555) (-49), f64 (-8165619676597685) 1)
  ; (f64 (-6980579422424269) (-52), f64 (-6766444868060935) (-47)); (f64 (-1745144855606067) (-50), f64 (-6766444868060863) (-47))
  ; (f64 (-4503599627370495) (-52), f64 (-3506970424209873) (-51)); (f64 (-3537118876014219) (-52), f64 (-9007199254740987) (-53))
  ; (f64 (-2251799813685247) (-52), f64 (-615081922423017) (-50)); (f64 1 (-52), f64 1 (-52))
  ; (f64 2251799813685249 (-52), f64 4920655379384141 (-53)); (f64 3537118876014221 (-52), f64 2251799813685249 (-51))
  ; (f64 4503599627370497 (-52), f64 7013940848419753 (-52)); (f64 3490289711212135 (-51), f64 422902804253813 (-43))
  ; (f64 (-1) 0, f64 (-3506970424209875) (-51)); (f64 (-884279719003555) (-50), f64 (-9007199254740991) (-53))
  ; (f64 (-1) (-1), f64 (-2460327689692069) (-52)); (f64 0 0, f64 0 0); (f64 1 (-1), f64 2460327689692069 (-52))
  ; (f64 884279719003555 (-50), f64 9007199254740991 (-53)); (f64 1 0, f64 3506970424209875 (-51))
  ; (f64 6980579422424269 (-52), f64 6766444868060935 (-47)); (f64 1745144855606067 (-50), f64 6766444868060863 (-47))
  ; (f64 884279719003555 (-49), f64 8165619676597685 1); (f64 1 1, f64 (-615034044623391) (-48))
  ; (f64 3 0, f64 (-5135780466178159) (-55)); (f64 884279719003555 (-48), f64 (-4967757600021511) (-105))
  ; (f64 1 2, f64 5214363495751187 (-52)); (f64 2652839157010665 (-49), f64 5443746451065123 0)
  ; (f64 5 0, f64 (-7612243061226247) (-51)); (f64 3 1, f64 (-2621150750165727) (-53))
  ; (f64 884279719003555 (-47), f64 (-4967757600021511) (-104)); (f64 7 0, f64 7849305620540025 (-53)) ].
Definition asin_table : list (float64 * float64) :=
  [ (f64 (-1) 0, f64 (-884279719003555) (-49)); (f64 (-6369051672525773) (-53), f64 (-7074237752028441) (-53))
  ; (f64 (-1) (-1), f64 (-2358079250676147) (-52)); (f64 0 0, f64 0 0); (f64 1 (-1), f64 2358079250676147 (-52))
  ; (f64 6369051672525773 (-53), f64 7074237752028441 (-53)); (f64 1 0, f64 884279719003555 (-49)) ].
Definition acos_table : list (float64 * float64) :=
  [ (f64 (-1) 0, f64 884279719003555 (-48)); (f64 (-6369051672525773) (-53), f64 2652839157010665 (-50))
  ; (f64 (-1) (-1), f64 2358079250676147 (-50)); (f64 0 0, f64 884279719003555 (-49)); (f64 1 (-1), f64 2358079250676147 (-51))
  ; (f64 6369051672525773 (-53), f64 884279719003555 (-50)); (f64 1 0, f64 0 0) ].
Definition atan_table : list (float64 * float64) :=
  [ (n_bot, f64 (-884279719003555) (-49)); (f64 (-1) 1, f64 (-1246538638225297) (-50)); (f64 (-1) 0, f64 (-884279719003555) (-50))
  ; (f64 (-6369051672525773) (-53), f64 (-1385937093311029) (-51)); (f64 (-1) (-1), f64 (-8352332796509007) (-54)); (f64 0 0, f64 0 0)
  ; (f64 1 (-1), f64 8352332796509007 (-54)); (f64 6369051672525773 (-53), f64 1385937093311029 (-51))
  ; (f64 1 0, f64 884279719003555 (-50)); (f64 1 1, f64 1246538638225297 (-50)); (n_top, f64 884279719003555 (-49)) ].
Definition atan2_table : list (float64 * float64 * float64) :=
  [ (f64 (-1) 2, f64 (-3) 0, f64 (-1246538638225297) (-49)); (f64 (-1) 2, f64 1 1, f64 (-1246538638225297) (-50))
  ; (f64 1 0, f64 1 1, f64 8352332796509007 (-54)); (f64 1 0, f64 (-3) 0, f64 1587429978396239 (-49))
  ; (f64 (-1) 1, f64 (-3) 0, f64 (-5750173598913587) (-51)); (f64 (-1) 2, f64 (-1) 0, f64 (-2044380892000077) (-50))
  ; (f64 (-1) 1, f64 (-1) 0, f64 (-2290580237788923) (-50)); (f64 (-1) 2, f64 0 0, f64 (-884279719003555) (-49))
  ; (f64 (-1) 1, f64 0 0, f64 (-884279719003555) (-49)); (f64 (-1) 1, f64 1 1, f64 (-884279719003555) (-50))
  ; (f64 (-1) 2, f64 1 0, f64 (-5970951936056573) (-52)); (f64 0 0, f64 1 0, f64 0 0)
  ; (f64 (-1) 2, f64 1 2, f64 (-884279719003555) (-50)); (f64 0 0, f64 1 2, f64 0 0); (f64 1 1, f64 1 0, f64 1246538638225297 (-50))
  ; (f64 1 1, f64 1 2, f64 8352332796509007 (-54)); (f64 1 0, f64 1 0, f64 884279719003555 (-50))
  ; (f64 1 0, f64 1 2, f64 8826286527774941 (-55)); (f64 1 0, f64 0 0, f64 884279719003555 (-49))
  ; (f64 1 1, f64 0 0, f64 884279719003555 (-49)); (f64 1 1, f64 (-3) 0, f64 5750173598913587 (-51))
  ; (f64 1 1, f64 1 1, f64 884279719003555 (-50)); (f64 1 0, f64 (-1) 0, f64 2652839157010665 (-50))
  ; (f64 1 1, f64 (-1) 0, f64 2290580237788923 (-50)) ].
Definition angles : list float64 := [f64 (-7) 0; f64 (-884279719003555) (-47); f64 (-3) 1; f64 (-5) 0; f64 (-2652839157010665) (-49); f64 (-1) 2; f64 (-884279719003555) (-48); f64 (-3) 0; f64 (-1) 1; f64 (-884279719003555) (-49); f64 (-6980579422424269) (-52); f64 (-1) 0; f64 (-884279719003555) (-50); f64 (-1) (-1); f64 0 0; f64 1 (-1); f64 884279719003555 (-50); f64 1 0; f64 6980579422424269 (-52); f64 884279719003555 (-49); f64 1 1; f64 3 0; f64 884279719003555 (-48); f64 1 2; f64 2652839157010665 (-49); f64 5 0; f64 3 1; f64 884279719003555 (-47); f64 7 0].
Definition ratios : list float64 := [n_bot; f64 (-1) 1; f64 (-1) 0; f64 (-6369051672525773) (-53); f64 (-1) (-1); f64 (-1) (-1); f64 0 0; f64 1 (-1); f64 1 (-1); f64 6369051672525773 (-53); f64 1 0; f64 1 1; n_top].
Definition pow_xs : list float64 := [f64 0 0; f64 3602879701896397 (-53); f64 3152519739159347 (-52); f64 1 0; f64 3152519739159347 (-51); f64 1 1; f64 2589569785738035 (-50)].
Definition pow_ys : list float64 := [f64 (-1) 1; f64 (-3602879701896397) (-51); f64 (-5854679515581645) (-52); f64 (-1) 0; f64 (-3152519739159347) (-52); f64 (-1) (-1); f64 (-6004799503160661) (-54); f64 0 0; f64 6004799503160661 (-54); f64 1 (-1); f64 3152519739159347 (-52); f64 1 0; f64 5854679515581645 (-52); f64 3602879701896397 (-51); f64 1 1].
Definition pow_neg_xs : list float64 := [f64 (-2589569785738035) (-50); f64 (-1) 1; f64 (-3152519739159347) (-51); f64 (-1) 0; f64 (-3152519739159347) (-52); f64 (-3602879701896397) (-53); f64 0 0; f64 3602879701896397 (-53); f64 3152519739159347 (-52); f64 1 0; f64 3152519739159347 (-51); f64 1 1; f64 2589569785738035 (-50)].
Definition pow_neg_ys : list float64 := [f64 (-3) 0; f64 (-1) 1; f64 (-1) 0; f64 0 0; f64 1 0; f64 1 1; f64 3 0].
Definition pi64 : float64 := f64 884279719003555 (-48).
Definition eps64 : float64 := f64 25 (-21).
Definition margin8 : float64 := f64 3022314549036573 (-78).
Definition c155 : float64 := f64 6980579422424269 (-52).
Definition mc155 : float64 := f64 (-6980579422424269) (-52).

Fixpoint look1 (l : list (float64 * float64)) (x : float64) : float64 :=
  match l with [] => n_nan | (k, v) :: l => if o_eq k x then v else look1 l x end.
Fixpoint look2 (l : list (float64 * float64 * float64)) (x y : float64) : float64 :=
  match l with [] => n_nan | (k, k', v) :: l => if o_eq k x && o_eq k' y then v else look2 l x y end.
Definition glibc : libm float64 := {|
  l_cbrt := look1 cbrt_table; l_log := look1 log_table; l_exp := look1 exp_table; l_pow := look2 pow_table;
  l_cos := look1 cos_table; l_sin := look1 sin_table; l_tan := look1 tan_table; l_asin := look1 asin_table; l_acos := look1 acos_table;
  l_atan := look1 atan_table; l_atan2 := look2 atan2_table; l_pi := pi64 |}.
Definition M : math float64 := float_math 53 1024 prec_gt_0_53 prec_lt_emax_64 glibc.

(** [z == Catch::Approx(v).margin(m)] (Catch2, catch_approx.cpp). *)
Definition fadd (a b : float64) : float64 := match n_add a b with Ret c => c | _ => n_nan end.
Definition fmul (a b : float64) : float64 := match n_mul a b with Ret c => c | _ => n_nan end.
Definition fabs (a : float64) : float64 := match n_abs a with Ret c => c | _ => n_nan end.
Definition within (v z m : float64) : bool := o_le z (fadd v m) && o_le v (fadd z m).
Definition approx (m z v : float64) : bool := within v z m || within v z (fmul eps64 (if inf_b v then n_zero else fabs v)).
Definition approx_bounds (m : float64) (z : outcome (ivl float64)) (l u : float64) : bool :=
  check (Z <- z ;; a <- lower true Z ;; b <- upper true Z ;; Ret (approx m a l && approx m b u)).
Definition is_nan_possible (z : outcome (ivl float64)) : bool := holds possibly (Z <- z ;; iisnan true Z).
Fixpoint tails {A} (l : list A) : list (A * list A) := match l with [] => [] | x :: t => (x, l) :: tails t end.
Definition fmin (l : list float64) : float64 := match l with [] => n_nan | x :: t => min_of x t end.
Definition fmax (l : list float64) : float64 := match l with [] => n_nan | x :: t => max_of x t end.
(** All [i <= j] of an array with the elements from [i] to [j]. *)
Fixpoint prefixes {A} (p l : list A) : list (A * list A) := match l with [] => [] | x :: t => (x, p ++ [x]) :: prefixes (p ++ [x]) t end.
Definition ranges (l : list float64) (f : float64 -> float64 -> list float64 -> bool) : bool :=
  all (tails l) (fun t => all (prefixes [] (snd t)) (fun p => f (fst t) (fst p) (snd p))).

(** test-interval.cpp 148-168: cbrt, log, exp. *)
Example test_cbrt_log_exp : all rows_double (fun r => let '(_, a, _, b, _) := r in
  let X := Ivl a b in
  let h (f : float64 -> float64) z := bounds (O := float64) z (Ret (omin (f a) (f b))) (Ret (omax (f a) (f b))) in
  h (m_cbrt M) (icbrt M true X) && (negb (o_le n_zero a) || h (m_log M) (ilog M true X)) && (negb (o_lt b (lit64 100)) || h (m_exp M) (iexp M true X))) = true.
Proof. vm_compute. reflexivity. Qed.

(** test-interval.cpp 540-583 *)
Example test_sin_cos_tan : ranges angles (fun a b vs =>
  let X := Ivl a b in let t (z : outcome (ivl float64)) (f : float64 -> float64) := let w := map f vs in approx_bounds margin8 z (fmin w) (fmax w) in
  t (isin M true X) (m_sin M) && t (icos M true X) (m_cos M) && (negb (o_le mc155 a && o_le b c155) || t (itan M true X) (m_tan M))) = true.
Proof. vm_compute. reflexivity. Qed.
(** test-interval.cpp 584-614 *)
Example test_asin_acos_atan : ranges ratios (fun a b _ =>
  let X := Ivl a b in
  (if o_le n_mone a && o_le b n_one
   then bounds (O := float64) (iasin M true X) (Ret (m_asin M a)) (Ret (m_asin M b)) && bounds (O := float64) (iacos M true X) (Ret (m_acos M b)) (Ret (m_acos M a))
   else throws_fail_fast (iasin M true X) && throws_fail_fast (iacos M true X))
  && bounds (O := float64) (iatan M true X) (Ret (m_atan M a)) (Ret (m_atan M b))) = true.
Proof. vm_compute. reflexivity. Qed.
(** test-interval.cpp 614-677 *)
Example test_atan2 : all atan2_rows (fun r => let '(X, Y, indefinite) := r in
  let z := iatan2 M true (Iv Y) (Iv X) in
  if indefinite : bool then is_nan_possible z
  else
    let v1 := m_atan2 M (lo Y) (lo X) in let v2 := m_atan2 M (lo Y) (hi X) in let v3 := m_atan2 M (hi Y) (lo X) in let v4 := m_atan2 M (hi Y) (hi X) in
    holds always (Z <- z ;; c <- iisnan true Z ;; bnot true c)
    && approx_bounds margin8 z (fmin [v1; v2; v3; v4]) (fmax [v1; v2; v3; v4])
    && approx_bounds margin8 (iatan2 M true (Iv Y) (Sc (lo X))) (fmin [v1; v3]) (fmax [v1; v3])
    && approx_bounds margin8 (iatan2 M true (Sc (lo Y)) (Iv X)) (fmin [v1; v2]) (fmax [v1; v2])) = true.
Proof. vm_compute. reflexivity. Qed.

(** test-interval.cpp 400-456: pow for non-negative bases. *)
Notation zero64 := (f64 0 0).
Definition pw := m_pow M.
Example test_pow_nonnegative :
  ranges pow_xs (fun a b _ => ranges pow_ys (fun c d _ =>
      let v := [pw a c; pw a d; pw b c; pw b d] in approx_bounds zero64 (ipow M true (Iv (Ivl a b)) (Iv (Ivl c d))) (fmin v) (fmax v))
    && all pow_ys (fun c => let v := [pw a c; pw b c] in approx_bounds zero64 (ipow M true (Iv (Ivl a b)) (Sc c)) (fmin v) (fmax v)))
  && all pow_xs (fun a => ranges pow_ys (fun c d _ =>
      let v := [pw a c; pw a d] in approx_bounds zero64 (ipow M true (Sc a) (Iv (Ivl c d))) (fmin v) (fmax v))) = true.
Proof. vm_compute. reflexivity. Qed.
(** test-interval.cpp 457-463: pow of an interval with negative elements and an exponent that is not an integer. *)
Example test_pow_indefinite :
  let X : ivl float64 := Ivl (f64 (-1) 0) zero64 in
  is_nan_possible (ipow M true (Iv X) (Sc (f64 (-3) (-1)))) && is_nan_possible (ipow M true (Iv X) (Sc (f64 3 (-1))))
  && is_nan_possible (ipow M true (Iv X) (Iv X)) && is_nan_possible (ipow M true (Iv X) (Iv (Ivl zero64 (f64 1 0)))) = true.
Proof. vm_compute. reflexivity. Qed.
(** test-interval.cpp 464-536: pow for negative bases and integer exponents. *)
Definition even_ (c : float64) : bool := match m_trunc M c with Ret z => Z.even z | _ => false end.
Example test_pow_negative :
  ranges pow_neg_xs (fun a b _ => all pow_neg_ys (fun c =>
    let X : ivl float64 := Ivl a b in let z := ipow M true (Iv X) (Iv (ivl_of c)) in
    if contains X zero64 && o_lt c zero64 then
      let signs := if even_ c then Ret (sset_of positive_sign) else isgn true X in
      let poss s := check (t <- signs ;; e <- set_eq true t (sset_of s) ;; Ret (possibly e)) in
      (negb (poss positive_sign) || check (Z <- z ;; u <- upper true Z ;; Ret (o_eq u n_top)))
      && (negb (poss negative_sign) || check (Z <- z ;; l <- lower true Z ;; Ret (o_eq l n_bot)))
    else
      let v := [pw a c; pw b c] in
      let vmin := if negb (o_eq c zero64) && even_ c && contains X zero64 then omin (fmin v) zero64 else fmin v in
      approx_bounds zero64 z vmin (fmax v) && approx_bounds zero64 (ipow M true (Iv X) (Sc c)) vmin (fmax v)))
  && all pow_neg_xs (fun a => all pow_neg_ys (fun c => approx_bounds zero64 (ipow M true (Sc a) (Iv (ivl_of c))) (pw a c) (pw a c))) = true.
Proof. vm_compute. reflexivity. Qed.
