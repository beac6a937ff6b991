(** Tests of the reading of command lines and of numbers: the expected bit patterns are those computed by Python for the same texts. *)
From Coq Require Import String.
From Verif Require Import M_Args.
Open Scope N_scope.

Definition numbers : list (string * N) := [
  ("0", 0);
  ("-0", 9223372036854775808);
  ("+0.0", 0);
  ("1", 4607182418800017408);
  ("-1.5", 13832806255468478464);
  (".5", 4602678819172646912);
  ("5.", 4617315517961601024);
  ("1e0", 4607182418800017408);
  ("1E5", 4681608360884174848);
  ("1e+5", 4681608360884174848);
  ("1e-5", 4532020583610935537);
  ("4.9e-324", 1);
  ("2.4703282292062327e-324", 0);
  ("2.4703282292062328e-324", 1);
  ("2.2250738585072014e-308", 4503599627370496);
  ("2.2250738585072011e-308", 4503599627370495);
  ("1.7976931348623157e308", 9218868437227405311);
  ("1.7976931348623158e308", 9218868437227405311);
  ("1.7976931348623159e308", 9218868437227405312);
  ("1e309", 9218868437227405312);
  ("-1e400", 18442240474082181120);
  ("1e-400", 0);
  ("-1e-400", 9223372036854775808);
  ("9007199254740993", 4845873199050653696);
  ("9007199254740992.99999", 4845873199050653696);
  ("9007199254740993.0000000000000001", 4845873199050653697);
  ("0.1", 4591870180066957722);
  ("0.2", 4596373779694328218);
  ("0.3", 4599075939470750515);
  ("0.001", 4562254508917369340);
  ("0.01", 4576918229304087675);
  ("123456789012345678901234567890", 5042042089369253694);
  ("0.0000000000000000000000000000001", 4143375250170144896);
  ("3.141592653589793238462643383279", 4614256656552045848);
  ("inf", 9218868437227405312);
  ("-INF", 18442240474082181120);
  ("Infinity", 9218868437227405312);
  ("-infinity", 18442240474082181120);
  ("8.5e-323", 17);
  ("1e23", 4950912855330343670);
  ("8.41e21", 4934958393344299186);
  ("2.2250738585072012e-308", 4503599627370496);
  ("6.9294956446009195e15", 4843795495440513624);
  ("10928588.983213553", 4712128852136459333);
  ("1.4186613525849614e+134", 6613812840851947673);
  ("-7.571968556055867e-74", 12736496262939004471);
  ("-1.4074705188261364e+113", 15523137368101252074);
  ("-3.3339745473042614e-121", 12027861843233603113);
  ("-1.2342180766211395e-271", 9777509567454608800);
  ("-5.126864004244935e+111", 15501686781378355951);
  ("-2.1520217579844227e+32", 14313909076419087323);
  ("0.1399601630397701", 4594210616595436404);
  ("1.01853664031722e-244", 956523682424107605);
  ("2.9704598186234577e-115", 2893396244277848635);
  ("3.0534183338726823e+150", 6858376947525423350);
  ("-2.3027782228163463e+146", 16019991071338850466);
  ("3.56409621163656e+161", 7023743836218156456);
  ("6.352929017207453e-183", 1881095652490078568);
  ("0.3146575865605324", 4599339987076239173);
  ("-1.2761724801771812e-23", 13487958864562975641);
  ("2.0868668176225336e+195", 7529058068588108450);
  ("3.66898827745704e-84", 3358703120032737309);
  ("-1.389122273370197e+145", 16001795929641688097);
  ("1.7548715433165102e+172", 7183850473961985349);
  ("-1039514241563211.8", 14055043351701082718);
  ("5.7804021771411506e-220", 1326906338224231255);
  ("-2.8497478716107576e-163", 11398726226450727658);
  ("3.490691392124745e+240", 8205770171119394379);
  ("1.3282314387596086e-145", 2439413297207794790);
  ("-2.9317061175715426e+274", 17936457123788771632);
  ("4.1124768973349897e-302", 98010135235158442);
  ("-2.5983853818656714e+29", 14270285075313520379);
  ("-2.5839922981649337e+259", 17711218894991640089);
  ("3.7615508677292285e-104", 3059511337525703479);
  ("2.1435728770450893e-103", 3071096560362593664);
  ("6.3583676891104784e+78", 5785846489742829405);
  ("2.0062829023357212e-63", 3668860471095815154);
  ("-6.792475937705741e+155", 16161541708973771926);
  ("-1.1878910286585398e-153", 11542684757909720132);
  ("1.1477511623364303e-84", 3351195362259660331);
  ("-6.384685499984821e+269", 17866718932088638871);
  ("6.725524671613862e-66", 3631777322866960663);
  ("-3.3367034274052276e+265", 17802886106043171366);
  ("3.877694405952627e+164", 7069225725891199282);
  ("4.653705104647486e-282", 397900185494973936);
  ("4.570939674669643e+203", 7653677975526109578);
  ("-2.4421404212946136e+229", 17262327690598029440);
  ("2.26797932753915e+17", 4866471433331325028);
  ("1.7861671810658467e+101", 6121634792987229952);
  ("-2.602349164887994e+83", 15078374277573369523);
  ("-1.8724773489262678e-202", 10812397853203589807);
  ("-2.535696537529436e-190", 10993871175345354573);
  ("-1.3710624349377491e-52", 13054320874516977994);
  ("3.013890678074884e-227", 1217899233055631545);
  ("1.6848352620292958e+130", 6555075480437483303);
  ("2.8283307810991783e+69", 5645889021261014682);
  ("-1.8226019816232835e-66", 12846677991095410117);
  ("7.721876539108463e-81", 3408464632754983231);
  ("5.2524808150207456e+274", 8716793999411716319);
  ("1.7032929977986795e-91", 3248842131919680082);
  ("88637315.64805965", 4725720759045430515);
  ("-2.3695306911835436e+233", 17321710581922668520);
  ("-8.801629211661505e+245", 17510027159842489447);
  ("608.656907029E-22", 4319504966775002690);
  ("47195406135895254.", 4856276224445011099);
  ("247201.986039547620075e+5", 4762281458246078893);
  ("-2064279.28775", 13924988860605529063);
  ("-827521748885.1E-23", 13664539781346336004);
  ("+44529078.45474855e+5", 4796389781155973996);
  ("+582823574.162E-39", 4154469925620045659);
  ("+.3", 4599075939470750515);
  ("+32.02152738067569E-23", 4285229871707921177);
  ("+46185.08941488e+13", 4871104017781210680);
  ("+8572296973291506159.e+18", 5159378991681873647);
  ("637476.62994474e-16", 4454488668369033193);
  ("0.197340260788437E-9", 4461694263037952572);
  ("-97891024485.94807e+8", 14114557467731741901);
  ("183066997.6763471406947E-35", 4206961615423473037);
  ("269.801341105616701e-193", 1756058714261522183);
  ("9.26219", 4621403767483837742);
  ("-9169206159775502.429e-61", 13156404650407367173);
  ("+.482357622", 4602361002344699994);
  ("-897.3", 13874475986942584422);
  ("-602631173296.534595e+20", 14305619366940831655);
  ("809.932611002", 4650335458407074775);
  ("-7496577132215.6E-16", 13783425632115687497);
  ("-430705.e+14", 14124042461201036210);
  ("15473.e-125", 2799429449341564112);
  ("+19654275417232.30964070E-2", 4775752318354073947);
  ("137.1", 4639027793977619251);
  ("-4.6e+5", 13915018389144731648);
  ("+83.15118e+0", 4635551661050360779);
  ("-576968204738.124714e+2", 14036098032279743036);
  ("+.16934073", 4595269163078748606);
  ("-5.6804290720064e-2", 13811719218931207858);
  ("+.47540e-302", 83902352053229910);
  (".649038625355e-233", 1118197781345175297);
  ("276.615573796270287790", 4643573888828617750);
  ("-375673343488535.5309e+7", 14152971829951597525);
  ("012614357789.1e-320", 25531744405385);
  ("+05094868786.79E-9", 4617422330719810158);
  ("-083441015.9964043101", 13948744078133580137);
  ("58660662.E-20", 4423840705028119489);
  ("+1.3444912", 4608733869239969823);
  ("9866.367893464195260e246", 8346872637177012065);
  ("-3591510728.1537", 13973194388382477084);
  ("+2.115259", 4611945558622113452);
  ("-1133552.71368e-210", 10779012646042954231);
  ("0765174017.535624719146e-279", 565728444686762942);
  ("124187.628", 4683270522023819870);
  ("2.e+14", 4820748001659060224);
  ("-1033707814978002.6e+13", 14249586380277397667);
  ("6025.2436153663", 4663346840116371216);
  ("7.11606e+19", 4904099391631416652);
  (".73159e109", 6235492823107062303);
  ("-5532.48814116545789739e228", 17297343388531881414);
  ("-700.03638e+1", 13887791032952630857);
  ("-084771159.849", 13948833342576484418);
  ("-703896184856275170.993E-5", 14022409937309911810);
  ("+5.5447E-16", 4378618232003219987);
  ("-.2349729290581", 13821005849111296937);
  ("9.e213", 7807759534823089372);
  ("119101748.814164474e+14", 4937120805914849980)]%string.
Succeed Definition test_numbers : forallb (fun x => match read_f64 (bytes_of (fst x)) with Some b => b =? snd x | None => false end) numbers = true := ltac:(vm_compute; reflexivity).
Definition no_numbers : list string := [""; "+"; "-"; "."; "e5"; "1e"; "1e+"; "--1"; "+-1"; "1.2.3"; "1,5"; " 1"; "1 "; "0x10"; "1f"; "nane"; "in"; "infin"; "1_000"; "e"; "1e5.0"; ".e1"; "+."]%string.
Succeed Definition test_no_numbers : forallb (fun x => match read_f64 (bytes_of x) with Some _ => false | None => true end) no_numbers = true := ltac:(vm_compute; reflexivity).
(** Not-a-number, in any case and with any sign. *)
Succeed Definition test_nan : map (fun x => option_map (fun b => (b / 2 ^ 52) mod 2 ^ 11) (read_f64 (bytes_of x))) ["nan"; "NaN"; "-nan"; "+NAN"]%string = [Some 2047; Some 2047; Some 2047; Some 2047] := ltac:(vm_compute; reflexivity).

(** Whole command lines. *)
Example reads_defaults : read_args (words ["create"; "out.pop"]%string) =
  Some {| ar_verbose := false; ar_jobs := 2; ar_command := Create {| ca_version := 2; ca_capacity := 10000; ca_probability := 4576918229304087675; ca_optimize := 0; ca_file := bytes_of "out.pop"; ca_dataset := [] |} |}.
Proof. vm_compute. reflexivity. Qed.
Example reads_forms : read_args (words ["-vj"; "4"; "create"; "-c100"; "-p=1e-3"; "--opt-lvl=1"; "a"; "--version"; "+1"; "--"; "-b"]%string) =
  Some {| ar_verbose := true; ar_jobs := 4; ar_command := Create {| ca_version := 1; ca_capacity := 100; ca_probability := 4562254508917369340; ca_optimize := 1; ca_file := bytes_of "a"; ca_dataset := [bytes_of "-b"] |} |}.
Proof. vm_compute. reflexivity. Qed.
Example reads_nothing : map read_args [words []; words ["create"]; words ["create"; "a"; "-j"; "3"]; words ["-j"; "2"; "-j"; "2"; "show"; "a"]; words ["show"; "a"; "b"]; words ["create"; "--version=256"; "a"]; words ["-j"; "-1"; "show"; "a"]; words ["check"; "--stdin=yes"; "a"]]%string
  = [None; None; None; None; None; None; None; None].
Proof. vm_compute. reflexivity. Qed.
