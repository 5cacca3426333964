(** src/SALib/sample/directions.py:15902-21201, transcribed number by number by a script. *)
From Coq Require Import NArith List.
Import ListNotations.
Local Open Scope N_scope.
Definition directions4 : list (list N) := [
[42002;1;3;1;9;1;53;71;191;217;165;1709;1827;1977;10073;11373;35311;26637;134519];
[42037;1;3;5;11;31;55;101;189;277;347;629;223;785;5739;25505;55601;55017;212837];
[42056;1;1;5;11;3;13;45;235;65;459;621;587;7105;6181;13193;5683;42935;198585];
[42079;1;1;3;1;3;17;27;109;261;979;903;1499;4799;11759;10591;65429;74587;16629];
[42085;1;1;5;1;13;63;29;11;441;151;611;4073;3933;6793;28845;39223;120823;49397];
[42089;1;3;3;5;21;13;23;53;357;197;1327;1773;2961;11509;16585;10201;28451;45109];
[42123;1;3;5;7;19;17;97;63;295;111;85;2981;6719;9193;15197;12117;2553;59909];
[42128;1;1;5;5;15;3;9;85;333;379;1409;1445;4173;3953;833;48089;120249;122703];
[42140;1;3;7;7;29;13;57;19;141;979;1991;4011;8125;3915;15753;1371;113771;117273];
[42149;1;3;3;13;21;53;115;187;279;29;1355;1843;253;3531;8193;54731;6213;123467];
[42156;1;3;3;1;25;29;109;19;37;385;901;3737;6247;9941;13185;2895;88819;53029];
[42186;1;1;1;1;3;31;89;157;483;657;1833;2975;3187;631;28685;7277;4915;115955];
[42191;1;3;3;1;25;41;13;99;385;303;297;419;7919;12411;757;9227;47867;120175];
[42205;1;3;5;11;23;15;21;157;177;301;789;2791;5769;7809;2369;26123;116465;22595];
[42221;1;1;5;9;17;63;45;239;465;811;1157;1443;8137;12587;26209;62057;59299;167171];
[42222;1;3;3;7;3;45;41;17;341;461;571;541;989;4069;17531;46729;107915;47871];
[42230;1;1;7;1;1;23;45;213;125;799;5;3443;2535;12983;2133;63411;93027;89831];
[42233;1;1;1;15;7;31;49;181;213;923;281;2059;861;6951;25659;32209;66423;225885];
[42241;1;3;3;7;9;39;107;197;383;179;27;1395;6397;16139;32049;33567;43977;203939];
[42247;1;1;3;5;13;37;13;31;339;527;641;181;1413;8145;341;57605;108031;109311];
[42248;1;1;1;1;21;35;87;15;279;967;1003;813;5075;10595;5609;33901;86443;150007];
[42254;1;3;1;5;27;9;75;199;377;889;545;1987;6277;361;12563;35699;27105;187995];
[42259;1;3;7;1;11;3;41;215;273;61;821;1207;2809;8731;26409;50323;22355;16521];
[42268;1;1;7;5;29;13;99;133;15;673;215;445;4051;2187;9395;62491;58685;224707];
[42295;1;3;3;13;21;59;17;1;271;613;939;1881;2379;16325;3275;63707;59961;106937];
[42304;1;3;3;1;23;53;51;181;391;375;767;239;373;4593;25211;37173;70409;252345];
[42322;1;3;3;11;15;17;37;145;41;107;151;1351;3457;14727;755;36321;99397;73359];
[42334;1;3;5;7;25;31;39;185;341;721;1799;1803;5985;10587;11605;9937;23905;56485];
[42355;1;3;1;3;19;35;25;71;109;209;1675;4043;2053;6285;25317;50171;68293;124385];
[42361;1;1;1;1;21;11;63;137;361;157;1985;2161;7239;1795;10459;38511;36817;253347];
[42373;1;1;1;5;31;3;13;83;185;175;567;295;459;11453;3765;9841;30333;201377];
[42374;1;1;3;13;5;57;99;125;371;903;2001;285;2005;8475;31617;58265;641;115507];
[42398;1;3;5;9;11;17;123;67;77;803;815;3173;4795;11917;1187;32389;102289;248359];
[42411;1;1;5;5;27;19;59;145;361;821;33;1465;7643;11101;145;21705;55105;181245];
[42443;1;3;7;5;15;55;127;133;157;989;1211;3573;4021;2967;2941;38657;97681;114505];
[42446;1;1;7;7;23;17;39;209;117;195;931;5;7509;9187;6011;10297;13727;258007];
[42463;1;3;1;13;3;17;105;69;9;163;1615;241;5207;13173;28521;51417;130645;106787];
[42479;1;1;7;13;15;3;5;187;5;239;1799;3083;7801;12781;24817;59341;73867;175273];
[42482;1;1;3;11;11;1;89;17;497;217;1565;2933;6449;7687;6561;57903;92751;261371];
[42484;1;1;1;1;15;39;47;249;39;765;249;2785;4401;16033;11463;127;120109;83133];
[42498;1;1;3;3;19;59;47;153;505;1009;413;1177;5999;6841;12013;40295;115641;189241];
[42534;1;3;3;11;17;51;45;101;459;971;1133;3467;4945;12445;1267;41783;66825;130167];
[42537;1;3;1;7;17;45;77;211;387;23;1903;2309;2681;6897;6959;30981;113537;207415];
[42557;1;1;3;1;19;9;103;89;461;881;71;2019;6475;13563;18835;2375;34807;1373];
[42570;1;1;7;11;3;31;125;121;43;737;1995;3043;811;8883;8169;22131;29295;194963];
[42599;1;3;7;11;7;45;125;149;427;187;1361;2405;2815;8877;15255;36867;95517;261969];
[42600;1;1;7;11;9;29;89;175;467;997;937;3869;7843;12629;8701;60717;30443;193427];
[42633;1;1;5;7;3;3;57;199;315;477;189;2029;2059;3473;27411;30419;26465;187807];
[42639;1;3;1;15;3;3;11;55;233;603;1749;1737;5709;4559;13427;39137;44885;61611];
[42672;1;1;7;1;25;15;61;199;107;737;909;3229;1799;5129;27655;45937;919;36161];
[42681;1;1;3;5;31;27;99;247;425;689;1335;1661;625;15817;22601;33293;113927;261931];
[42687;1;1;1;9;5;57;117;121;465;859;335;879;665;12787;21313;46387;16437;53769];
[42704;1;1;3;1;11;11;75;145;307;621;833;235;3907;11331;6633;51905;72581;129613];
[42713;1;1;3;13;17;13;81;125;377;499;1597;3437;4323;789;23825;46609;105997;159709];
[42714;1;3;3;9;5;29;113;51;23;957;1981;3205;2549;9771;2555;44289;103893;170241];
[42716;1;1;5;15;13;17;101;67;71;7;185;3775;5399;5213;13095;26045;59467;95547];
[42726;1;1;5;5;31;11;77;169;3;1007;1853;2245;509;13489;2807;55227;67541;242835];
[42730;1;3;7;15;11;63;39;97;1;219;1827;2343;6009;4909;4327;21853;46079;87719];
[42737;1;3;1;9;17;51;119;93;179;607;1051;2381;619;11215;10839;44771;20555;12721];
[42752;1;3;3;5;21;47;35;133;61;937;1561;1655;6527;5085;4141;60811;59971;6309];
[42757;1;3;1;7;5;63;7;235;489;675;945;943;7107;6005;32695;27655;113219;132963];
[42772;1;1;1;7;7;5;81;237;365;1;811;3075;1771;5223;7337;24601;68383;156975];
[42809;1;3;1;15;5;35;39;91;301;387;805;3537;737;7453;4655;16349;108261;123697];
[42853;1;3;5;3;9;59;95;187;155;183;589;2107;967;1095;4875;46131;100699;212797];
[42857;1;3;1;7;27;29;77;133;397;445;933;1483;5027;12569;22163;58989;16657;195347];
[42902;1;3;5;15;21;51;97;135;165;311;525;171;4785;7947;14649;40837;58875;222303];
[42912;1;3;3;5;23;47;41;23;321;709;1555;1139;3775;11617;13001;18235;51803;197863];
[42930;1;3;5;3;3;41;91;157;29;1005;945;3471;2563;8493;24961;44759;103079;50841];
[42936;1;1;5;11;23;19;91;115;165;291;1653;1061;1067;6171;18441;26067;3569;117329];
[42956;1;3;7;15;17;19;89;23;103;389;623;1071;203;9545;21259;36155;55395;141741];
[42959;1;3;5;11;27;43;31;193;55;489;353;1615;7461;13977;31901;64051;82667;258825];
[42978;1;1;3;7;5;39;7;245;241;843;1545;3499;8117;15057;14153;2665;107401;66059];
[43001;1;3;5;11;9;11;41;171;255;153;1973;759;51;15601;327;25889;110861;20555];
[43011;1;3;5;7;5;15;41;77;87;143;1141;3975;2675;7131;5549;52397;42073;27585];
[43047;1;1;3;7;29;5;79;243;359;817;1053;3509;3347;6207;5147;31063;116851;132627];
[43059;1;3;7;3;27;51;39;7;95;239;263;3497;867;1869;16773;46947;59193;37523];
[43094;1;3;1;1;25;31;113;127;187;77;675;3307;999;12255;26441;30933;122761;116783];
[43124;1;1;5;7;7;11;87;59;437;485;685;3159;7259;16271;24899;17919;130271;52953];
[43218;1;1;3;11;7;13;61;157;149;1001;285;3631;1923;16013;19507;64447;8073;261171];
[43220;1;3;7;9;7;13;45;7;225;671;287;1059;5223;2077;7551;58385;92955;162725];
[43240;1;1;5;11;11;21;17;145;97;633;475;2639;2069;9663;23633;50949;109941;119865];
[43258;1;1;5;13;9;49;127;171;199;413;1315;645;305;12123;9559;38319;99945;103313];
[43263;1;3;5;3;19;21;119;17;301;611;1785;2081;2245;8761;4755;9507;23133;144575];
[43265;1;3;7;11;17;25;101;59;397;249;687;715;1151;15941;20525;5171;24073;46257];
[43290;1;1;3;15;11;45;9;201;421;867;389;3615;5965;10561;18309;17143;52771;230743];
[43346;1;1;3;5;9;1;109;233;431;849;421;475;1331;9903;20649;34759;118611;38541];
[43364;1;3;5;15;9;55;113;217;83;409;1449;2325;4825;11311;14565;65075;124399;3591];
[43373;1;3;3;9;27;13;101;181;255;313;693;951;1153;13941;14097;8325;4589;102883];
[43401;1;3;7;3;3;1;43;65;321;623;1389;57;3461;9965;6743;34843;91673;249573];
[43416;1;3;5;5;11;29;101;79;275;685;569;59;6921;16065;30625;53339;32283;93401];
[43443;1;3;1;11;29;33;103;145;431;289;1845;1915;23;699;5475;18413;127185;162637];
[43458;1;3;1;11;27;23;71;63;45;579;1187;1189;1781;5595;9043;10155;33321;36487];
[43497;1;3;3;15;17;19;85;233;293;833;1711;857;7573;393;23141;58713;21399;228381];
[43506;1;3;3;15;3;35;33;35;403;123;575;3509;6303;13203;17997;15649;64331;124101];
[43545;1;1;3;9;23;25;39;53;119;879;573;3225;5069;15489;21887;11773;37783;169523];
[43558;1;3;5;5;5;25;29;189;145;863;661;3939;1059;11993;1487;3157;118287;69835];
[43576;1;3;7;3;15;9;85;107;17;965;1097;2087;1947;14649;4099;50941;64511;209153];
[43579;1;3;5;15;19;21;127;71;429;97;1989;835;743;11973;14635;45371;114657;208085];
[43624;1;3;5;7;23;61;99;133;235;237;435;2681;331;7859;20859;3573;102901;775];
[43630;1;3;3;9;7;57;29;15;53;569;871;1703;2573;10791;719;3487;105709;89573];
[43637;1;1;1;9;7;21;21;207;459;621;737;635;5101;4343;4961;32067;64017;73675];
[43654;1;1;3;9;25;27;77;69;251;327;921;3759;1715;14537;21399;10937;9085;241329];
[43660;1;1;5;1;23;13;63;117;81;427;1063;1987;2433;14837;13473;28623;44799;202223];
[43696;1;3;1;11;17;55;89;89;455;255;1009;1891;2197;9045;23543;48783;22871;58613];
[43706;1;3;7;15;25;5;11;71;399;23;239;93;6681;11311;23403;58131;59549;38917];
[43725;1;1;1;1;19;63;73;31;69;145;921;2475;3505;4797;23805;28621;101153;98895];
[43733;1;3;3;3;9;1;113;111;275;851;519;1607;635;13287;6191;24545;112039;114383];
[43753;1;3;7;9;13;13;107;97;37;133;21;1059;4201;6777;2843;43503;23761;13247];
[43756;1;1;7;9;25;23;101;135;471;901;539;4083;1765;15553;5879;10787;67543;104543];
[43761;1;3;3;13;25;63;1;49;287;357;1701;3689;3895;16313;22619;20203;8195;93127];
[43768;1;1;1;11;15;37;75;43;311;443;1639;549;4707;3099;677;59115;11709;71013];
[43812;1;1;5;11;17;43;23;21;421;613;199;1029;5255;271;12911;63431;108889;253379];
[43822;1;3;7;11;27;45;9;89;65;25;1183;3497;8123;2389;215;16819;63777;163423];
[43841;1;1;5;5;29;43;65;201;391;861;1133;3985;983;13039;15545;13695;91467;963];
[43861;1;3;7;3;9;55;73;205;287;765;941;353;7379;2511;555;64399;77605;121959];
[43868;1;3;1;11;25;15;109;35;351;675;1219;3791;233;15133;30733;24477;86077;85857];
[43877;1;1;1;7;13;33;63;45;503;525;781;517;2187;1587;17297;26147;35421;61269];
[43878;1;3;1;9;9;35;69;79;447;675;803;2793;5793;4433;29227;5437;103347;37713];
[43908;1;3;1;9;27;31;65;167;327;231;1959;657;3141;8659;11055;23923;73597;187139];
[43917;1;1;5;9;29;5;37;3;281;693;133;2139;5867;12073;23669;11427;80627;249003];
[43936;1;1;1;13;9;35;89;203;381;281;535;1061;7417;13373;12149;37943;113133;110797];
[43954;1;1;7;5;7;17;71;65;385;851;1357;3435;4441;6999;27065;32753;129531;52447];
[43963;1;3;7;1;3;21;25;113;361;219;1345;2193;5711;3331;14343;23075;39955;71223];
[43977;1;1;7;9;15;9;101;183;59;861;931;3385;6517;12067;7753;37997;128361;4591];
[44008;1;3;5;3;23;5;37;217;203;749;993;2537;2425;13949;17235;15461;21275;141815];
[44013;1;3;5;1;19;59;63;241;211;285;2033;1111;2859;14801;9491;14557;12973;223089];
[44026;1;1;1;11;15;41;57;59;233;897;1193;381;2237;5309;19237;57607;97941;116573];
[44028;1;1;3;9;15;17;75;15;385;129;495;887;4933;15113;7449;56213;15841;248029];
[44045;1;3;1;1;29;37;19;221;47;185;1105;3297;5235;6917;12041;10815;54747;132329];
[44046;1;3;1;5;3;17;33;35;395;491;1157;2563;6257;1025;18295;5293;77851;140157];
[44053;1;3;1;13;7;31;95;21;347;409;1485;925;327;11497;7305;6503;111175;70989];
[44091;1;3;3;1;11;41;127;93;367;649;1585;3379;7269;5537;26077;28541;55379;22989];
[44101;1;1;1;5;27;11;35;49;7;113;1477;3615;7567;505;13915;51023;50783;45031];
[44129;1;1;7;5;25;1;35;59;269;427;791;3179;1423;9801;17717;23631;97947;126861];
[44139;1;3;5;7;1;51;77;97;19;287;303;791;307;4939;13615;61225;98127;114693];
[44172;1;3;3;15;5;5;93;119;429;977;1763;3727;1761;3597;16489;71;44103;257929];
[44203;1;1;5;1;15;29;79;33;335;381;1233;47;6741;4953;29689;11223;129185;182487];
[44211;1;1;1;11;29;27;27;189;507;523;1949;2567;4105;1227;16631;34187;28521;265];
[44240;1;3;3;7;3;7;39;155;315;439;1953;1227;6135;16291;453;50929;67507;166981];
[44259;1;3;1;5;7;55;121;119;87;869;1049;575;3675;13505;15661;43899;106877;141691];
[44305;1;3;1;11;23;9;117;243;329;767;335;2951;2887;13441;27579;15437;31699;165177];
[44383;1;3;7;11;5;49;47;125;431;511;299;3215;3287;7029;9737;28317;34355;232365];
[44384;1;3;7;3;17;9;29;255;509;393;1583;1979;6735;941;4393;35741;82019;109633];
[44389;1;1;5;1;13;31;95;133;117;257;993;1513;4669;12239;7841;751;79567;23289];
[44390;1;1;7;9;25;33;127;181;61;333;1087;1661;2715;2569;30041;4937;36053;3435];
[44432;1;3;1;13;15;27;123;73;377;85;435;3435;2079;9271;28685;30089;38799;210247];
[44435;1;1;5;3;5;17;93;181;313;837;1115;3099;3603;3483;23185;9933;53127;123245];
[44468;1;1;1;13;3;57;11;67;41;273;1005;2313;505;6593;27287;47359;104597;45475];
[44472;1;1;1;5;13;41;97;251;317;483;163;1493;6629;11995;31293;4715;98569;178419];
[44483;1;3;5;5;21;7;69;169;223;953;1573;1137;8075;7733;23031;14589;6453;228883];
[44497;1;1;7;9;27;37;3;183;41;99;111;1713;1291;8263;6373;39549;3099;156793];
[44550;1;1;3;1;23;43;15;27;223;173;1601;2159;3595;15143;31065;35799;77339;141397];
[44577;1;1;5;13;9;35;27;93;23;999;593;563;5333;8825;27277;46381;3171;6311];
[44584;1;3;7;15;25;17;7;237;379;649;1879;2643;5951;4227;4937;24549;43577;116327];
[44601;1;1;3;9;29;35;101;105;19;151;1135;897;2427;15779;31851;29183;44471;187817];
[44674;1;3;7;11;9;55;19;115;395;559;1883;409;2459;201;18975;339;108251;19429];
[44683;1;3;1;13;1;11;67;45;407;169;1401;381;3913;6491;28133;63857;52095;115749];
[44688;1;1;1;11;21;45;65;253;511;51;893;3533;2101;4779;23941;22449;82457;44447];
[44694;1;1;7;11;19;33;101;241;493;111;1967;469;6575;10445;733;56467;27403;25863];
[44703;1;3;1;1;5;49;21;79;53;621;43;1183;1385;9129;21727;35559;35269;211383];
[44713;1;1;1;13;23;43;53;145;149;611;745;899;7095;3243;1993;35807;110783;246199];
[44721;1;1;7;9;25;37;71;233;407;1;1749;759;7689;15573;7351;33505;22631;49125];
[44722;1;3;1;13;31;49;105;13;257;843;1171;2819;621;12567;24339;6689;127413;249671];
[44733;1;1;5;11;5;1;93;21;317;789;571;2493;7255;6459;14737;13989;47003;246561];
[44746;1;3;5;7;9;11;69;143;175;581;825;2219;1165;9061;6073;57169;18135;94943];
[44748;1;1;5;7;7;55;121;107;395;939;1291;2497;3757;1361;31823;19375;22551;224653];
[44760;1;1;7;15;15;1;47;225;223;589;1539;173;6257;5461;11197;9801;80687;84279];
[44765;1;3;7;11;23;47;83;119;367;895;431;1949;565;1397;24911;29661;67861;74621];
[44766;1;3;3;9;17;29;15;65;157;255;303;1467;3279;8873;31279;431;8497;7209];
[44775;1;1;5;13;9;39;85;133;427;897;1665;2109;2865;15573;27729;59905;2241;83099];
[44794;1;3;1;13;1;45;65;65;249;79;1515;503;953;9859;13307;27419;102209;107529];
[44822;1;3;7;9;17;13;79;93;231;5;1811;557;1837;8077;8109;3497;79985;134375];
[44841;1;1;5;9;15;3;23;27;491;9;1657;3877;3783;12645;2599;10673;40035;197681];
[44859;1;1;5;3;5;13;121;145;291;621;1731;145;2033;341;3667;4139;52035;115865];
[44894;1;3;5;5;3;29;115;227;339;23;1659;2367;1079;10757;30709;41473;55847;228761];
[44900;1;3;5;7;7;61;103;57;197;31;237;2507;5247;10529;13823;47845;129031;47029];
[44904;1;3;7;5;3;17;91;31;277;977;1905;3991;3657;12197;14535;43263;109629;31665];
[44946;1;1;5;15;29;43;121;113;159;929;669;2067;4999;6847;12369;61795;98525;78051];
[44967;1;1;3;7;25;61;65;79;373;683;113;1495;5447;15507;16731;53959;62905;252173];
[44994;1;3;1;11;1;15;101;55;477;357;333;3243;3325;5885;11385;685;90575;23015];
[44999;1;3;1;7;15;13;91;141;209;865;2035;2791;367;9953;29547;36731;13649;192911];
[45013;1;1;5;15;9;59;37;131;3;299;897;119;7515;5271;2207;18187;62613;210345];
[45017;1;3;1;7;29;53;95;185;327;473;1525;3751;915;5883;4137;46343;104917;182895];
[45020;1;1;7;3;31;57;53;169;215;607;541;1081;5265;2509;28379;41767;19435;143693];
[45027;1;1;7;7;31;57;19;203;467;57;1305;1513;6069;15595;31717;44687;65335;159315];
[45029;1;1;1;1;13;1;41;39;489;465;1645;2847;6193;11025;11297;55945;92085;243061];
[45066;1;3;3;13;15;47;87;77;321;903;181;2093;1673;5375;17969;48467;83441;120867];
[45074;1;3;3;13;13;17;65;181;283;471;745;1091;7255;5987;29423;27579;96201;218157];
[45080;1;1;1;7;13;5;101;131;309;401;99;2353;55;2377;6059;64777;33401;225605];
[45090;1;3;1;15;9;35;37;197;65;593;411;2233;1485;9599;9581;31935;115145;76867];
[45101;1;3;7;9;3;41;103;237;453;335;1831;3947;7573;3859;12495;60617;20715;163119];
[45110;1;3;5;7;9;9;25;79;421;267;585;1093;2237;8881;7311;39417;110901;8969];
[45113;1;3;3;15;1;29;75;159;89;965;457;1645;1485;729;30547;2275;79633;126089];
[45134;1;3;7;7;19;47;55;115;287;477;719;3311;2455;12033;13811;34011;45153;126991];
[45136;1;3;7;5;9;33;27;215;7;113;1027;415;1057;13011;1547;7955;21347;79427];
[45148;1;3;1;11;1;41;27;29;255;763;219;897;915;453;9417;22845;31655;228869];
[45158;1;1;7;13;7;49;105;111;53;219;171;841;5027;5311;28171;58719;32241;170921];
[45176;1;3;5;7;21;53;11;169;45;429;1727;1953;8119;14955;19997;62665;31345;135715];
[45181;1;1;5;13;17;13;125;247;411;663;1725;2515;7995;8963;5797;32871;66603;137997];
[45185;1;1;5;5;23;37;15;63;35;817;463;1413;1203;8031;4169;45755;93511;134751];
[45188;1;1;1;1;31;17;15;125;199;57;1499;1567;6113;6503;515;57841;49885;213881];
[45203;1;1;7;7;15;1;67;213;197;471;577;27;1533;13009;31861;62435;113139;77057];
[45209;1;3;7;1;29;21;99;173;137;19;1727;1157;5215;4367;28803;26031;120195;60111];
[45231;1;1;5;9;25;55;27;45;231;693;765;429;2897;6045;19705;61903;5385;172967];
[45234;1;3;1;5;9;17;35;151;91;41;89;3751;27;5721;26117;6105;31609;79569];
[45239;1;3;5;11;15;3;25;73;383;765;729;51;4245;6215;9435;45223;68071;68453];
[45246;1;1;7;5;31;61;19;153;331;233;11;3047;3939;11959;897;4437;2941;174493];
[45260;1;1;7;11;27;11;83;33;7;761;805;2327;2997;12269;18707;10615;114357;54951];
[45284;1;3;5;9;3;45;65;193;347;771;663;2901;6467;14109;5169;38021;39605;216877];
[45301;1;1;7;1;1;13;109;179;499;325;1763;1923;7429;259;20589;48473;49605;124709];
[45333;1;3;1;3;5;27;25;127;313;541;589;751;5959;5801;32467;40597;75625;24827];
[45350;1;1;1;3;13;35;71;223;281;767;447;1253;2227;7305;23125;62847;16783;76145];
[45354;1;1;5;5;11;1;95;215;351;915;1471;143;4011;3373;19019;31797;85891;33871];
[45446;1;1;3;9;15;39;125;29;85;625;1155;753;6679;14239;14597;32715;97313;162291];
[45458;1;1;1;7;13;47;127;69;199;145;123;3207;7673;9991;27501;29189;93027;136881];
[45518;1;3;1;15;9;21;121;23;457;315;437;1919;5531;13817;8883;4421;19487;88591];
[45566;1;3;1;9;15;49;101;27;11;283;1277;971;7697;5915;12709;38251;88165;261609];
[45569;1;1;3;9;17;19;53;131;327;917;603;2451;3597;14731;9223;29719;113507;69875];
[45575;1;1;5;7;1;3;77;71;149;901;283;1599;1053;16305;9937;20907;4133;29623];
[45576;1;1;3;9;25;63;101;255;397;233;1111;1583;3431;5245;30209;33201;63859;16551];
[45587;1;1;7;5;19;25;9;137;105;363;867;811;5829;12595;18867;61021;19425;99399];
[45615;1;1;3;7;11;1;119;95;367;239;1677;67;283;5701;3635;26917;112895;224049];
[45661;1;3;5;11;13;33;11;191;305;551;159;1953;4231;811;8711;41291;110917;176177];
[45798;1;3;5;9;15;3;27;29;77;881;849;1113;7151;3433;11199;38409;98173;21373];
[45829;1;1;5;13;25;57;81;169;215;379;1707;493;1071;4869;19149;24585;61803;149305];
[45847;1;1;5;11;13;11;9;45;207;347;1203;185;3919;3119;27879;50793;18499;109239];
[45858;1;1;1;5;3;23;123;175;445;439;215;1883;6857;14837;29411;33633;96241;68361];
[45864;1;1;5;7;31;53;19;41;477;203;1133;1471;5067;3875;30655;9207;24835;22019];
[45899;1;3;1;11;19;9;91;217;135;169;489;727;5471;2125;20867;19689;78859;222433];
[45904;1;1;1;13;5;37;37;39;397;527;789;1447;7123;6099;16849;48895;95543;56135];
[45919;1;3;7;7;15;31;81;165;31;867;1879;1161;3651;5167;12855;60195;85611;191791];
[45974;1;1;1;9;31;35;19;123;281;445;63;2683;7073;1489;9791;40125;43723;103765];
[45987;1;3;3;9;23;31;113;241;149;463;1047;3737;8105;16295;4565;8095;16617;87455];
[45989;1;3;5;15;1;47;29;77;27;1013;1091;3657;835;563;7139;58839;92697;114523];
[46008;1;3;1;1;5;49;87;251;473;583;2033;809;5341;15835;691;57133;75751;127717];
[46036;1;3;1;11;23;51;95;167;73;739;573;1113;7585;5457;25767;5583;29583;48263];
[46039;1;1;3;5;9;59;1;235;17;973;1987;3629;1739;6419;29943;44963;63943;18571];
[46043;1;3;7;11;9;37;25;253;307;411;891;1977;6979;11287;12619;50327;25831;135673];
[46045;1;1;5;15;23;27;83;157;253;559;1989;2431;4821;6617;4295;16143;249;109855];
[46079;1;1;3;9;31;59;117;139;379;703;49;3013;6383;4019;7289;4567;34931;224967];
[46084;1;1;1;3;3;33;49;127;177;417;723;3259;1547;3297;19733;59465;122179;13209];
[46091;1;3;3;1;3;61;23;177;77;579;1739;2707;5319;13291;10223;45395;62797;124675];
[46105;1;1;3;15;25;47;79;111;245;853;1103;3741;5783;2075;26371;28801;117831;111735];
[46117;1;1;5;11;3;47;43;61;75;963;1507;3491;6031;14171;32557;23779;44815;168409];
[46141;1;3;3;7;21;39;61;109;13;833;373;4021;4035;7987;18957;10423;82823;8763];
[46147;1;1;7;3;3;33;113;77;447;127;213;1605;3873;12345;7847;63903;80665;6647];
[46162;1;3;1;5;25;11;49;233;377;791;43;195;393;1403;27567;29673;11327;190513];
[46184;1;3;1;15;21;3;21;169;221;495;1045;3715;4923;2437;23203;59905;70285;258455];
[46197;1;1;7;13;29;33;91;153;31;359;25;3947;1699;4081;20907;24953;64977;88115];
[46207;1;1;5;11;17;7;17;129;91;835;139;3823;1827;6787;27367;26801;61513;189677];
[46214;1;3;3;9;23;21;97;103;481;859;413;893;4021;8111;23703;18791;102735;82735];
[46218;1;1;1;7;11;53;61;3;347;633;191;3605;41;12605;14381;60403;126223;186157];
[46237;1;3;5;1;11;33;61;235;245;623;2019;3289;5761;15557;1685;2173;104825;245139];
[46247;1;1;3;7;19;55;75;219;11;75;1765;1833;263;6605;26297;24969;17721;109495];
[46251;1;1;7;5;7;33;23;109;207;137;385;3233;6765;3517;31389;57049;25645;176257];
[46327;1;1;5;5;27;63;65;23;93;721;1665;3805;3611;7543;21119;38565;99921;72773];
[46333;1;1;1;13;13;19;23;5;425;727;1469;1261;6597;725;27129;36953;25781;191581];
[46342;1;3;3;1;3;29;25;109;237;135;409;2239;5033;11007;31861;55171;76313;216271];
[46366;1;3;7;13;31;33;11;31;179;67;755;2513;37;12863;24053;12315;45009;166643];
[46376;1;1;5;13;13;37;19;223;409;387;139;3283;243;15573;24173;63271;91561;168665];
[46384;1;3;5;7;17;25;63;231;23;965;1873;1021;7927;11127;19553;9883;83009;258991];
[46404;1;3;1;7;17;21;71;65;165;845;1739;2395;5959;14803;17333;59003;36477;202511];
[46478;1;3;5;13;15;57;59;205;507;41;703;195;4373;4023;13399;62061;43645;204899];
[46511;1;3;5;11;13;13;43;19;497;599;1345;2001;407;2731;16283;55161;130887;189201];
[46540;1;1;7;5;13;3;105;83;235;363;869;1715;4031;3419;15149;10627;47787;226107];
[46638;1;3;3;3;9;49;99;161;413;739;195;2815;1157;9069;15591;4509;30765;184013];
[46700;1;3;7;5;25;63;23;91;507;647;1249;2035;4341;8811;8345;49463;69023;195775];
[46706;1;3;5;5;5;21;117;1;321;495;251;1961;8043;6593;11017;6167;56607;144009];
[46745;1;1;3;3;15;63;41;177;403;375;1771;3;7481;4887;799;59283;106319;32155];
[46757;1;1;1;7;19;57;97;91;489;561;335;3809;3167;8879;1789;22329;58851;84461];
[46772;1;3;3;11;3;23;79;25;187;497;1343;543;4495;14599;29365;14795;26341;26923];
[46776;1;3;1;13;21;35;9;227;423;761;439;3099;5167;12955;12877;5591;123511;74227];
[46790;1;1;3;7;1;49;115;95;481;659;183;2337;39;235;30869;10223;59673;65293];
[46794;1;1;1;13;11;29;113;37;153;993;1195;1695;4741;13671;29097;65023;78281;156235];
[46804;1;3;5;11;19;17;47;243;273;679;393;4059;705;12473;1867;13783;86821;240545];
[46820;1;3;1;11;23;35;15;31;275;261;427;909;7925;4737;22825;34859;28593;20071];
[46849;1;3;1;1;13;1;115;115;103;63;1023;815;7007;6063;13329;28051;29807;109861];
[46870;1;1;1;11;19;57;49;169;33;59;579;2409;89;9655;18091;57771;34509;175991];
[46876;1;1;5;9;27;19;41;217;313;359;1745;3887;589;3103;10087;30615;56793;102515];
[46903;1;3;7;11;25;43;101;245;67;1003;1379;2141;8025;15231;20705;45513;82251;147295];
[46904;1;3;5;5;5;47;19;33;107;773;627;4077;5829;6483;25791;35079;103073;201657];
[46907;1;1;5;15;1;37;115;15;61;987;1029;2125;5357;10233;14907;12077;92143;207301];
[46932;1;1;7;7;3;15;95;3;393;535;819;743;3613;11459;2269;17083;65547;74813];
[46955;1;1;7;5;11;27;117;65;55;87;105;3219;1587;383;25349;54561;11935;101203];
[46963;1;1;5;15;23;53;37;149;191;963;1407;4091;1647;9537;30247;23501;123745;76301];
[46991;1;3;1;1;21;31;11;107;55;823;805;141;7177;15883;3307;52245;115171;260589];
[47029;1;3;7;13;25;15;5;221;347;83;51;1227;4591;851;10173;37777;82441;175219];
[47036;1;1;7;15;17;41;121;215;111;999;367;1961;3207;10145;10395;24381;95937;12693];
[47054;1;1;1;11;23;27;117;255;87;519;599;3471;3983;2797;13477;56479;27321;101585];
[47099;1;1;5;9;1;3;35;15;457;209;141;1295;1631;9745;30247;44865;78113;13207];
[47106;1;3;3;1;27;63;29;31;277;173;1321;3847;4127;8713;10507;8697;97025;105995];
[47132;1;1;5;13;13;47;33;69;113;369;539;4075;1013;9733;9291;33377;130567;238331];
[47145;1;3;7;13;15;15;125;219;205;763;1233;1911;7733;7623;27305;6067;16169;238805];
[47151;1;3;1;9;23;17;35;175;157;627;1045;1791;1675;11699;2151;28293;14529;30523];
[47156;1;1;5;9;5;1;23;151;295;949;371;3317;2557;5815;9699;48379;104561;103747];
[47171;1;3;5;5;11;57;125;247;29;257;979;2437;4391;8229;11231;30145;111165;92347];
[47188;1;1;3;3;27;17;71;71;357;367;1213;2549;6049;15299;2891;21839;109889;34643];
[47201;1;1;1;11;7;21;41;77;249;567;1947;2989;875;12975;23599;49313;67213;98415];
[47219;1;1;7;7;27;51;103;221;295;247;1579;2435;67;3087;9421;59573;111143;42363];
[47226;1;1;1;13;27;27;75;33;81;841;1295;2823;997;16329;6117;43361;63727;113347];
[47241;1;1;1;3;19;7;43;93;397;293;803;3021;3915;1417;22255;38529;53737;133705];
[47252;1;3;3;13;1;33;1;235;255;345;1621;315;2685;6451;7133;239;103075;175033];
[47261;1;3;1;11;29;47;61;115;395;633;1913;2983;4581;3729;22511;16479;80607;232859];
[47295;1;3;7;7;27;25;29;121;511;533;1791;3349;4915;8213;13913;6595;2353;207495];
[47297;1;3;7;5;21;25;77;189;473;1015;1455;1923;3281;15163;2329;58529;55369;195007];
[47333;1;3;1;1;25;37;117;41;207;413;143;1707;7463;15399;3013;4141;37669;70953];
[47337;1;3;5;3;31;61;41;157;141;387;1705;1661;3607;6905;3305;63235;7977;253707];
[47360;1;1;5;11;29;15;61;127;417;795;171;415;7935;4553;29979;21153;108811;219959];
[47377;1;1;5;11;17;61;3;9;297;53;933;341;507;2683;15313;24113;78617;191127];
[47378;1;1;7;15;5;57;65;187;15;541;1843;731;7331;2479;26259;32685;125259;108693];
[47384;1;1;7;7;11;15;33;183;225;609;1755;3531;2767;6267;30823;36797;59699;136769];
[47389;1;3;5;13;15;19;77;239;307;691;1165;1327;7901;9299;7777;39151;96261;79791];
[47417;1;1;3;5;29;31;85;109;381;243;955;193;3461;5163;18607;51143;74457;84685];
[47420;1;1;5;9;11;23;77;247;149;759;1153;1781;4107;16315;15513;48545;55607;163947];
[47426;1;3;3;5;21;27;57;61;75;943;97;1507;4091;671;23023;49095;61649;222401];
[47443;1;1;3;13;1;3;15;105;285;255;577;1347;2917;10257;21607;63041;79823;6447];
[47504;1;1;3;1;17;25;109;47;445;225;1729;2835;4569;8755;21847;25839;43503;173599];
[47507;1;1;5;15;19;1;121;119;33;77;1147;359;5747;2785;15567;5409;125979;199183];
[47510;1;3;1;9;17;45;85;83;427;223;531;1681;2343;14959;27297;54607;70889;45529];
[47526;1;1;5;11;31;61;109;195;505;197;159;2799;4517;11549;10297;17415;58277;206577];
[47550;1;1;3;5;17;43;107;207;453;161;1775;1287;5775;12417;14201;48187;75073;121099];
[47552;1;1;5;7;31;27;67;251;127;443;263;895;8081;14053;32023;54743;14723;221285];
[47557;1;3;3;13;27;45;51;47;243;15;1283;2291;3613;14733;8777;3959;36769;104789];
[47564;1;3;5;1;5;31;1;139;411;79;959;1431;2329;3595;19231;55747;18923;223709];
[47591;1;3;1;1;7;9;69;201;305;411;459;3201;2525;6977;16249;17777;114321;243831];
[47610;1;3;3;5;13;7;3;27;201;279;1253;1725;1481;8885;1233;40699;7267;189095];
[47621;1;3;5;5;31;61;53;231;93;597;2027;2179;4517;565;27807;5447;130341;10411];
[47639;1;1;7;1;9;17;63;245;405;23;1647;285;6625;8935;959;29095;657;185511];
[47646;1;1;7;7;5;15;49;69;479;585;437;1097;5933;1709;26169;36895;16981;147033];
[47676;1;3;7;13;29;19;89;249;195;687;379;1291;4791;9039;6381;12965;99995;105107];
[47682;1;1;5;7;13;49;101;217;205;635;577;3301;911;1793;22285;20163;22593;45701];
[47732;1;3;7;9;3;21;55;123;205;309;59;3739;1625;839;26733;27443;6699;244287];
[47741;1;1;1;11;29;3;33;57;481;691;1401;3595;5435;571;6945;10911;94721;89751];
[47751;1;1;3;5;21;19;23;169;263;137;771;1995;2211;6287;18691;14219;65647;89885];
[47757;1;1;3;7;7;53;9;155;327;325;301;3703;1069;15573;14873;15665;71617;5079];
[47786;1;3;1;3;27;15;1;203;465;629;71;1093;2071;7743;22441;42997;35249;113329];
[47803;1;3;5;3;21;35;107;73;247;575;719;3215;3181;5861;25169;6503;12347;196371];
[47828;1;3;1;3;7;29;117;115;221;345;165;1367;1491;15791;12647;34679;1043;219311];
[47848;1;3;5;7;19;47;65;65;101;323;1209;3185;3803;1077;18933;17081;7475;165133];
[47853;1;1;7;1;25;9;61;245;175;201;1837;2119;943;14043;14343;46299;81151;5587];
[47856;1;1;1;1;31;27;49;89;387;975;1203;2995;2969;1465;925;39611;38101;126043];
[47862;1;3;7;13;21;17;45;139;359;11;335;79;6629;6137;7879;62735;99493;138943];
[47874;1;3;5;5;9;23;91;195;89;195;1931;3855;387;3491;29643;59939;32347;171539];
[47883;1;3;3;15;21;55;5;13;139;125;1731;3131;1927;16051;8351;18625;32465;255813];
[47916;1;3;7;11;21;45;53;225;33;733;115;639;4801;5529;11041;3557;83521;37525];
[47934;1;3;7;15;3;37;111;127;463;565;543;2593;2203;5719;11667;63735;16481;155613];
[47951;1;1;3;13;31;1;17;53;479;629;1517;89;3377;4831;9213;55029;69547;52363];
[47979;1;1;7;1;5;47;115;73;59;407;1227;2955;5249;7921;4713;28699;41455;1161];
[48010;1;1;7;7;5;7;39;7;97;867;247;639;3125;14961;19737;52589;59821;96095];
[48027;1;1;7;5;11;51;63;245;385;1003;189;4039;6137;3621;13241;55753;14855;50221];
[48046;1;3;5;3;9;61;83;209;301;917;259;187;6253;1579;28285;16571;100945;158067];
[48060;1;3;5;11;5;47;123;173;253;183;1823;459;4719;13639;8455;12217;88779;134863];
[48065;1;1;1;5;1;45;43;163;371;427;1791;1073;1615;14473;15895;4971;105269;109201];
[48075;1;3;1;15;11;9;99;99;25;21;1499;83;6967;12923;13623;27423;4707;477];
[48096;1;1;3;5;15;49;45;27;51;391;1849;347;6841;2831;4425;40701;61135;116945];
[48119;1;1;3;7;21;23;15;223;403;395;1997;3247;6345;11739;6511;44323;86667;213287];
[48173;1;3;7;11;31;21;75;129;427;777;1787;4031;1493;2279;10681;36675;25527;123533];
[48176;1;3;5;15;9;5;117;147;259;265;1817;583;5341;12115;2369;4023;123479;218877];
[48186;1;1;1;15;5;21;87;57;487;529;1129;2989;39;5995;28779;35813;97425;5227];
[48213;1;1;7;3;7;1;41;231;195;205;1663;3149;4439;8241;3085;43965;58833;216779];
[48223;1;1;3;1;23;45;65;3;55;653;131;2425;5653;9105;16921;55221;29241;220927];
[48224;1;3;1;3;5;47;107;49;175;957;1287;1299;5215;4141;31697;9371;43339;133933];
[48229;1;3;1;7;13;55;33;163;361;793;101;2159;3457;12893;11627;27115;95201;2945];
[48241;1;1;7;15;11;39;79;113;385;41;1715;3887;1347;8141;6121;18653;50867;55745];
[48281;1;1;7;13;3;5;23;59;223;665;1823;2989;1069;15161;8917;5539;47437;240933];
[48284;1;3;7;13;13;19;73;25;413;211;439;339;1159;16063;9589;33451;28789;118883];
[48291;1;1;5;11;13;61;81;63;197;569;961;253;2065;8969;24045;52811;26929;111329];
[48308;1;3;7;5;19;23;27;163;37;103;1737;175;1853;597;14147;46159;26385;69427];
[48340;1;3;7;9;27;43;45;209;61;115;645;1149;1473;10557;8541;51703;29207;92059];
[48344;1;1;5;5;25;53;123;243;493;403;485;1505;6879;1921;13569;28271;24407;73057];
[48368;1;1;3;11;15;31;99;29;503;819;55;773;2993;15341;7625;12835;28555;200609];
[48400;1;1;7;9;21;49;47;207;13;571;57;1727;7441;1703;4253;64851;113;180273];
[48406;1;3;3;9;23;1;1;53;195;569;925;1969;3031;14371;17673;39163;11819;117573];
[48409;1;1;1;11;5;3;103;133;447;1015;1049;3283;7507;233;13721;50721;75511;227561];
[48421;1;3;1;1;17;59;79;105;503;173;1575;1563;5807;12841;7983;28209;27527;229919];
[48448;1;1;3;9;3;41;125;213;361;939;161;2235;2575;13519;7957;21527;40693;51055];
[48453;1;3;7;11;11;7;117;21;7;745;1109;3393;953;5163;19909;49121;85061;209555];
[48457;1;1;7;5;27;59;127;199;119;461;653;497;5867;767;16373;21201;87589;171491];
[48478;1;1;7;11;7;21;121;97;17;827;1191;113;6527;14977;32567;15191;104541;140359];
[48493;1;1;7;13;19;29;127;207;233;511;43;3177;7963;5559;24185;13373;37853;150537];
[48527;1;3;3;9;15;17;119;201;443;51;17;605;4191;5251;28903;4861;92571;143499];
[48583;1;1;5;11;21;45;111;245;115;705;1267;3013;7907;14973;30499;44117;118229;136571];
[48597;1;3;7;7;31;35;69;143;269;27;1365;775;6067;11477;28475;54573;92827;226459];
[48641;1;1;5;1;1;29;41;189;423;245;1031;1667;3465;1491;26787;53851;26189;215443];
[48668;1;3;3;5;23;29;97;141;135;249;767;3627;7867;9311;25411;38325;118643;128453];
[48671;1;3;7;13;3;25;61;121;285;401;1099;2327;5509;16127;2363;52395;114233;216013];
[48682;1;1;1;13;7;37;83;151;447;605;289;2941;6273;5945;7493;29805;34935;101177];
[48709;1;1;7;13;31;51;125;9;321;293;489;4023;2425;7645;2927;20973;111223;71255];
[48719;1;1;7;3;27;9;59;143;307;543;1995;111;5807;4641;3581;2421;64213;187567];
[48731;1;3;3;9;23;33;47;81;441;995;213;3501;1003;9885;24101;58767;49507;30525];
[48780;1;3;1;3;19;51;117;53;49;167;1799;1421;2473;3183;14421;58621;130703;48095];
[48791;1;1;7;7;5;25;33;237;447;377;517;2047;4357;2747;16491;23935;21655;144151];
[48797;1;1;7;7;17;5;57;67;89;897;1163;3517;1651;6745;23449;2853;43829;50707];
[48807;1;1;1;13;5;45;87;139;339;1021;649;2957;7887;11957;11235;11063;77329;93121];
[48811;1;1;1;7;11;35;73;241;11;287;551;207;4701;2031;27191;44337;35577;226387];
[48814;1;3;5;11;19;3;41;211;29;913;1455;2525;3935;5581;8043;12033;97479;73521];
[48821;1;3;5;7;15;49;53;185;229;161;121;3407;903;7257;19535;42197;3983;222077];
[48836;1;1;5;7;17;33;61;121;343;111;151;1147;3743;2423;24151;42307;50711;140317];
[48846;1;3;3;7;27;1;119;209;243;185;1253;2307;7659;7839;9697;16799;5189;130005];
[48848;1;3;3;1;27;21;115;175;157;735;1233;1133;1763;1125;4667;42569;125185;218417];
[48854;1;3;5;9;5;37;97;165;87;447;1491;3141;597;10651;9727;65163;2469;141859];
[48874;1;1;5;13;11;53;111;123;423;413;1519;3715;6623;15415;24085;20925;1529;85183];
[48908;1;3;7;1;31;45;93;45;363;779;443;3687;6051;11683;31733;57251;55087;240877];
[48929;1;1;1;15;1;17;53;237;131;673;1919;1531;7455;5043;1709;23375;75657;194393];
[48941;1;3;5;9;21;3;101;141;387;887;1329;2627;2865;2685;20273;18901;43805;181049];
[48954;1;3;5;5;7;49;55;243;311;653;959;3157;4891;8777;14381;28105;119323;181129];
[48961;1;1;1;9;17;33;97;123;71;5;793;2829;4385;8577;9927;26213;53287;203555];
[48962;1;1;1;9;15;61;51;31;195;1003;1915;2349;5319;13411;15265;36321;76157;200437];
[48985;1;3;1;13;19;41;11;227;447;395;1885;2953;3537;3855;21611;14547;106573;233205];
[49001;1;3;1;11;1;1;7;61;69;631;1687;1131;6901;5801;14431;17807;35777;253941];
[49007;1;3;5;9;15;47;71;145;419;401;1781;2031;3157;14483;2393;4061;122053;81701];
[49015;1;3;7;13;23;21;67;147;137;277;259;3119;4785;5349;3193;21805;108265;231111];
[49035;1;1;3;9;23;63;77;153;75;643;1341;3607;6001;3387;17485;17893;124699;99515];
[49062;1;1;7;11;9;51;79;255;255;723;1797;2805;2505;3437;4835;30731;73741;8051];
[49066;1;1;5;7;5;19;73;75;19;889;1443;2263;5773;9997;329;46679;82313;130897];
[49085;1;3;3;9;7;53;69;11;287;861;1367;1433;2693;16255;6785;24705;77463;231247];
[49091;1;1;3;7;21;15;115;131;169;447;1731;2873;119;643;31719;22193;17959;150567];
[49094;1;3;3;9;23;21;7;39;185;837;379;3687;3751;14801;15231;7239;77521;80135];
[49127;1;1;1;1;7;33;93;247;487;873;1951;3273;551;3735;29477;62387;30361;145613];
[49134;1;1;3;7;5;47;17;31;93;517;1175;1033;7421;75;541;1967;13059;104751];
[49183;1;3;5;3;19;23;123;115;99;747;655;2885;2991;7497;5989;33419;54363;224947];
[49221;1;3;3;1;15;9;51;3;307;879;1065;1835;2267;11299;21995;2997;102207;39];
[49231;1;3;5;3;9;19;19;79;499;121;951;1151;379;5299;13727;49061;32605;208683];
[49250;1;3;7;7;23;41;71;23;493;969;271;3729;6199;14693;17625;52509;121257;151175];
[49252;1;1;7;15;9;51;61;9;147;527;803;3255;723;3241;23961;17497;122569;50863];
[49270;1;3;5;1;19;19;31;31;95;667;377;1193;6759;8583;29801;7989;113899;43481];
[49297;1;3;7;5;17;47;1;7;305;489;1035;1335;5901;9635;10433;4235;108577;52661];
[49313;1;1;7;3;15;7;105;189;429;287;679;111;2087;8479;3053;21763;65655;16207];
[49340;1;3;5;13;19;41;45;115;311;653;1301;3797;6183;7203;9829;13263;71649;255611];
[49365;1;3;1;9;21;33;19;233;83;423;1701;347;3999;11885;19699;61931;63895;59615];
[49379;1;1;7;7;15;19;61;43;183;223;1135;3099;3137;16181;31019;20151;30169;13125];
[49386;1;1;1;11;9;11;3;157;495;207;603;1919;3565;7639;4281;49179;2465;224033];
[49391;1;3;1;13;13;19;127;81;475;659;1053;3153;5223;12567;30945;47109;98253;41571];
[49417;1;1;5;11;19;1;9;67;501;149;1695;1265;6467;5285;29865;46777;97581;209395];
[49438;1;1;1;11;21;23;123;103;419;787;111;3327;673;3425;8097;2411;107353;121379];
[49444;1;1;3;3;17;7;87;35;501;973;351;751;4813;12245;3053;38633;44995;37151];
[49453;1;3;5;15;7;57;99;53;3;355;153;3897;6923;2075;10821;41819;75665;21237];
[49454;1;3;5;9;3;29;85;115;191;977;1067;1539;5287;3589;18017;35571;41633;148565];
[49480;1;1;3;9;9;57;1;63;333;107;1173;3377;3599;277;20643;19295;91169;168891];
[49485;1;1;5;13;21;7;55;15;79;995;1553;949;6357;8137;9539;861;95635;63021];
[49498;1;1;5;13;31;59;11;55;159;449;307;2725;2305;8259;13823;51225;44775;54253];
[49513;1;3;3;15;19;61;105;19;211;693;835;3607;3703;14007;24597;47109;49855;166115];
[49527;1;3;1;9;27;33;81;229;445;171;247;2019;5227;8759;30155;1851;26909;47145];
[49531;1;1;3;5;23;1;57;49;177;451;1283;3859;4719;13507;29439;9155;129585;94713];
[49564;1;3;3;5;1;9;37;23;423;611;113;119;4307;11747;93;51213;5479;172061];
[49588;1;3;3;15;5;35;9;43;423;877;1563;3411;4233;6961;22421;7347;39553;199745];
[49609;1;3;1;9;15;35;85;57;151;323;1627;27;3603;11475;6561;6091;72099;185321];
[49617;1;1;3;15;17;21;3;119;455;147;1077;3955;1355;3083;28217;50745;114445;46563];
[49645;1;1;5;3;13;11;35;185;357;447;649;139;2847;12011;7753;671;113693;236281];
[49646;1;3;5;1;19;27;117;195;67;259;1073;81;5527;6829;26675;60029;8159;13553];
[49654;1;3;3;7;27;63;115;191;431;191;1547;2261;6527;13459;12773;37485;114847;61709];
[49697;1;1;3;1;29;63;47;77;415;191;325;2487;7457;13721;1573;15037;31941;226651];
[49718;1;1;5;11;29;59;49;209;195;901;691;3167;7471;11609;30135;22067;71395;248151];
[49741;1;3;7;11;7;43;55;69;289;735;1479;139;1395;6463;19827;52151;18963;103367];
[49754;1;3;5;5;27;45;77;79;89;79;913;1437;3337;8861;5477;46195;105869;242599];
[49756;1;3;5;3;3;27;103;207;233;995;1173;1143;3517;3207;8373;45145;79687;150107];
[49833;1;3;7;3;7;37;1;137;45;479;861;3863;4249;3075;23639;12531;118473;255805];
[49834;1;1;1;9;7;23;125;57;347;215;1749;3029;97;14715;16213;29291;104725;92043];
[49879;1;3;3;15;31;39;111;97;369;675;1471;3889;6437;1499;13325;46141;121087;202493];
[49942;1;1;1;15;15;21;3;167;251;793;1291;427;6407;15521;15441;20071;54513;200485];
[49946;1;1;7;11;27;47;123;195;241;385;609;2323;1221;815;279;28553;17663;180977];
[49982;1;1;3;15;23;53;21;19;329;903;561;1539;2829;13037;29867;27825;84005;14853];
[49994;1;1;5;1;21;27;103;99;31;829;515;3949;3635;935;2127;56659;123477;47003];
[50001;1;3;1;11;17;63;51;15;319;539;55;2561;1109;16115;23387;20051;120867;4019];
[50023;1;3;3;7;31;11;45;251;209;21;553;887;393;15183;14735;13163;123681;15013];
[50047;1;3;1;7;21;41;105;39;213;477;985;2375;937;7099;8867;36519;60503;143225];
[50120;1;3;1;1;19;55;73;171;379;271;791;2477;5381;1703;3805;37227;55553;34549];
[50133;1;1;5;5;29;51;127;111;209;663;975;2293;8155;11263;7891;15463;74889;227403];
[50137;1;3;5;1;15;1;115;221;23;247;1597;87;7513;3329;14491;8961;78147;89499];
[50140;1;3;5;15;25;23;99;85;189;487;1559;427;6179;5291;27279;65507;77347;177073];
[50156;1;3;7;1;23;35;7;89;455;659;2039;3115;4057;139;1269;62319;13629;201571];
[50199;1;1;1;5;9;47;55;171;213;813;135;1545;1421;4055;26697;18889;57653;201369];
[50205;1;3;1;11;9;45;5;69;261;907;1229;1371;1867;1771;17309;41759;119129;43521];
[50215;1;1;7;5;11;27;9;237;405;53;1359;3665;169;3547;23331;14353;106627;219711];
[50216;1;3;3;5;17;23;9;41;81;601;1447;3225;6721;161;16109;54331;111273;81061];
[50224;1;1;5;7;7;37;71;13;505;671;425;2771;1131;1259;13715;45779;114839;217499];
[50229;1;1;1;5;9;51;85;223;117;403;1117;723;2465;11947;7495;62991;17825;169147];
[50233;1;1;3;13;5;57;47;35;313;901;365;1265;137;6335;31419;38497;93285;177187];
[50251;1;3;5;5;7;9;21;109;47;557;1449;3459;5175;5135;727;55425;60593;86571];
[50281;1;3;7;5;1;17;119;239;347;75;1345;2765;1491;16297;25233;60401;85433;59287];
[50326;1;1;5;5;19;57;41;53;161;475;1791;3617;1651;15227;30357;63547;69937;246473];
[50332;1;3;7;11;11;43;79;79;195;437;39;1259;6041;14989;6615;58747;43583;246979];
[50348;1;1;7;9;11;13;49;133;365;931;1089;713;5997;8759;5789;61329;22639;149845];
[50359;1;3;7;13;9;3;11;253;339;883;1933;443;4265;14165;15845;12625;1453;70961];
[50374;1;1;7;13;21;35;113;83;473;719;1601;1727;3715;631;28075;17725;11393;116883];
[50404;1;3;7;7;7;13;117;83;365;529;1297;3903;2633;9617;15819;38137;49065;189445];
[50443;1;1;1;7;11;41;107;33;381;395;1993;2819;3301;7543;6787;27437;113681;132403];
[50488;1;1;1;1;3;59;91;235;67;987;1587;1119;5851;13201;1125;49709;381;183295];
[50493;1;3;5;9;3;33;45;187;455;151;823;565;5725;1927;25387;61785;130271;134083];
[50505;1;1;7;5;15;25;63;231;133;401;307;2961;4249;2639;10207;8349;8203;72783];
[50511;1;1;5;13;19;27;43;153;165;815;1385;3041;853;7683;1035;13255;69779;128765];
[50525;1;1;1;3;31;61;97;15;327;717;841;643;4781;11609;14181;14625;75369;251015];
[50542;1;1;5;11;17;33;9;45;111;91;1923;967;5649;13647;30497;2925;18395;255089];
[50550;1;3;3;1;3;55;33;29;101;211;1731;2351;7389;14935;29703;60031;122305;174323];
[50560;1;1;1;3;13;23;79;117;367;267;143;1537;3159;2303;9653;12029;2841;226971];
[50570;1;1;1;13;19;57;103;159;315;895;1879;2153;1901;7635;14145;56495;6203;151203];
[50587;1;3;3;11;31;11;75;5;419;963;1809;3751;7291;12697;2841;17965;91707;80361];
[50593;1;1;7;7;5;23;29;199;413;501;19;697;6523;3997;4945;59817;127613;220399];
[50611;1;1;7;5;1;17;51;9;183;689;325;2391;2095;1907;10325;51045;20097;33719];
[50649;1;3;5;11;3;33;45;221;325;7;253;1323;4959;14067;10035;39463;123171;194581];
[50656;1;1;3;3;15;45;25;57;357;907;1249;3279;2631;9209;7857;58233;29049;173859];
[50685;1;3;3;9;29;39;105;55;295;583;825;1777;2403;9489;9079;24855;18155;252733];
[50686;1;1;5;15;5;63;77;215;287;743;1937;2103;2673;15487;27855;46683;120215;89721];
[50692;1;3;3;5;27;1;45;19;309;679;1405;415;6107;13567;5803;61941;130285;51847];
[50702;1;3;1;15;23;49;47;113;401;825;1299;2711;6509;12225;16147;20615;121305;121937];
[50704;1;3;5;5;31;41;31;57;385;919;593;1371;6773;12099;23767;17663;128321;188921];
[50709;1;1;3;15;5;41;17;7;479;143;549;1827;8107;14775;28817;12297;119893;191297];
[50720;1;3;7;5;29;61;27;123;269;223;121;1745;3513;1989;9759;8129;78933;40085];
[50726;1;1;5;13;23;49;125;225;479;123;41;2359;4443;4729;31717;3139;3869;118803];
[50729;1;3;3;3;15;7;7;87;415;95;1799;2009;4711;15635;21997;47201;16815;99815];
[50737;1;3;3;1;31;57;73;31;423;363;1469;2411;6449;15275;14189;51079;130201;130181];
[50758;1;1;5;3;3;31;107;11;355;647;1463;3019;3263;13727;10461;26577;4439;132737];
[50772;1;1;1;7;13;55;31;227;71;563;1467;3733;725;3443;19279;4111;35749;62275];
[50849;1;3;3;15;9;17;61;95;43;583;1381;1285;2655;9213;27551;16237;29569;216879];
[50850;1;1;1;3;29;3;87;193;53;599;1581;907;4381;8697;27299;40259;122653;43559];
[50881;1;3;5;3;15;49;21;27;35;353;1281;3253;7339;9333;25253;35035;30379;87387];
[50901;1;1;1;15;7;27;69;41;45;729;1005;3495;1445;7421;27443;29609;70105;93883];
[50906;1;1;7;7;1;41;15;149;107;121;639;3703;3397;1727;14165;2845;78531;175767];
[50915;1;3;7;15;27;17;121;175;399;551;1889;2283;4343;3633;653;3267;101901;162157];
[50961;1;3;3;15;23;41;97;251;435;955;69;509;8001;11783;7397;7587;127089;15391];
[50992;1;3;5;5;25;25;63;25;203;655;2039;2545;5405;1377;30543;65531;122825;6853];
[50997;1;1;7;9;9;43;73;195;465;497;1085;3821;7115;7513;21913;32499;96467;181905];
[51001;1;1;3;7;29;29;63;131;409;423;687;2549;7367;6867;2685;29137;61845;194409];
[51004;1;3;7;7;3;23;47;31;121;629;1771;2387;861;2269;29565;19599;18051;121531];
[51033;1;1;1;3;21;13;109;105;163;433;521;3467;6225;3705;30605;3265;119313;2535];
[51045;1;3;5;3;25;25;89;177;415;67;361;3317;6411;4857;23249;41959;59931;35797];
[51052;1;3;7;15;5;37;37;65;71;13;1621;2217;3723;2113;23755;46521;48091;44307];
[51064;1;1;5;13;5;5;63;75;61;443;1663;3239;7717;2623;5723;42673;8519;58773];
[51085;1;1;3;1;29;13;35;61;391;517;1007;17;2519;7121;20095;33449;21397;103787];
[51127;1;1;5;1;9;45;49;151;39;347;1821;2687;1551;12117;29429;40963;77795;20941];
[51139;1;1;5;3;13;49;107;105;201;601;1335;2389;6837;11123;22985;62705;59057;128333];
[51153;1;3;3;13;5;3;21;103;481;621;2037;2963;425;4685;27475;24363;116419;171743];
[51181;1;3;3;5;27;27;5;91;245;421;795;1869;6455;4463;23467;24039;69681;262127];
[51182;1;3;1;11;11;5;31;253;469;593;877;2041;4615;1541;11823;58525;128689;95985];
[51194;1;3;5;13;31;35;115;73;97;213;1499;1371;4239;7897;3987;4833;115043;222743];
[51196;1;3;3;5;31;15;17;233;137;521;1721;1913;1881;13457;10733;61527;19825;192601];
[51200;1;3;1;3;11;21;81;77;377;915;321;3925;867;5491;4707;37307;52141;29155];
[51239;1;1;5;1;13;51;97;161;295;159;1717;3817;4687;1907;2655;60577;73867;161851];
[51240;1;1;3;13;21;31;33;145;375;377;1429;1981;4851;9047;2685;49037;67399;124243];
[51254;1;1;7;13;1;55;65;147;471;277;1585;3949;1885;1635;15687;46367;120931;192097];
[51260;1;1;7;9;13;27;33;41;377;863;1297;181;2685;11285;3961;63201;59757;70231];
[51342;1;1;3;15;29;3;79;25;147;683;1563;805;5891;3355;20113;48261;38195;14589];
[51370;1;1;7;11;9;15;21;33;47;923;1291;4001;203;305;21575;41915;74769;114921];
[51372;1;3;7;11;15;1;75;173;473;493;291;811;931;10731;9855;57891;81575;250565];
[51377;1;3;3;3;31;31;71;141;389;661;71;3245;6827;9219;26607;50511;94783;130785];
[51398;1;1;7;3;9;15;67;141;293;779;3;3311;7063;13709;29715;55227;11043;150343];
[51402;1;3;3;3;21;9;45;111;207;715;345;1345;3079;3851;23709;33919;108213;25353];
[51407;1;3;5;13;7;3;35;95;397;397;1159;2759;5233;16237;12469;29543;39133;64429];
[51410;1;1;5;13;19;35;9;7;153;843;2025;1379;3361;15889;7411;26399;106295;19851];
[51412;1;3;1;1;21;15;71;143;279;431;487;967;4445;11969;16671;48891;59605;230607];
[51419;1;3;5;1;25;63;23;143;221;805;377;1441;1971;1985;10055;35991;115873;223455];
[51428;1;3;1;7;21;57;1;185;117;75;1623;3805;2385;10245;29009;59149;130219;114763];
[51431;1;3;1;13;19;13;105;241;47;597;1725;2579;3785;1667;12427;62623;60883;189977];
[51460;1;3;5;13;1;55;59;133;263;415;1013;139;3037;13661;15303;27279;84095;184807];
[51475;1;3;1;11;7;45;3;179;315;639;875;3299;5221;8463;17507;59673;73865;98867];
[51477;1;3;7;7;3;3;53;233;219;519;585;3029;3623;9559;2251;43735;121513;208007];
[51478;1;3;1;3;17;47;47;145;445;541;163;2653;165;7213;3311;57335;43967;191841];
[51482;1;3;5;5;7;47;39;119;13;727;887;3743;3807;15267;3977;52833;14851;61851];
[51511;1;1;3;5;9;9;107;119;501;723;1965;3093;6947;1783;11287;24243;14005;106677];
[51518;1;3;3;11;11;29;85;243;359;195;221;1767;6969;15275;20853;26921;40903;29849];
[51568;1;3;1;5;31;3;11;247;371;339;1263;119;791;7425;18879;11333;34359;178929];
[51607;1;1;3;7;23;15;121;203;441;499;779;1971;339;8737;6859;32417;97073;256143];
[51618;1;1;5;11;3;23;25;51;407;677;97;281;427;3671;7939;54485;3967;210199];
[51630;1;1;5;9;5;45;23;171;255;967;313;3881;6039;10545;3591;51985;37145;99291];
[51655;1;1;5;7;3;13;55;147;83;369;1707;1919;491;11507;29559;29169;65897;80587];
[51673;1;1;3;13;31;41;41;237;245;109;969;1797;8169;6351;3657;9655;109201;245117];
[51683;1;3;7;5;17;23;17;219;473;1;865;1949;7589;10107;3035;19903;79579;138695];
[51709;1;3;1;15;13;57;109;117;277;773;31;3807;7615;2453;22655;51513;108367;248473];
[51716;1;1;7;11;17;59;27;167;63;931;13;3721;1789;7621;31093;27541;37283;35193];
[51774;1;3;3;11;13;9;7;85;45;151;1865;4049;4433;9517;231;30733;93701;126585];
[51829;1;3;1;13;21;33;19;87;77;425;351;1163;7453;12567;24615;35563;127643;28625];
[51830;1;1;3;11;7;35;27;47;465;595;985;573;2541;7841;14749;43761;26699;135895];
[51839;1;1;1;7;25;51;93;237;355;575;1;443;5697;1997;28801;11621;62531;88449];
[51849;1;1;1;9;23;35;23;91;161;601;1401;2187;6283;10711;21277;47771;12589;176625];
[51869;1;3;3;5;13;23;33;65;213;835;539;2487;273;6113;18327;52493;17571;160909];
[51886;1;3;1;5;25;9;117;201;457;331;1455;439;4891;5515;21701;9343;29085;120299];
[51905;1;1;1;5;29;7;43;125;155;43;1949;2901;7293;13683;18289;16873;27899;168631];
[51906;1;1;7;3;29;33;53;137;301;27;1101;837;5843;13167;6073;49083;120031;45065];
[51915;1;3;5;1;31;47;127;185;279;603;1699;1693;3263;9055;3525;46065;79305;19949];
[51948;1;3;7;9;17;47;25;191;369;877;1477;3041;5123;1393;5061;1755;61051;55299];
[51988;1;1;5;13;13;7;89;141;251;321;1515;2677;5103;12901;29875;165;15073;47795];
[51998;1;3;1;7;1;37;55;173;191;981;685;4003;6319;3037;30637;11955;81015;89239];
[52004;1;3;5;5;1;5;55;251;229;153;425;2793;6779;15797;10087;7573;121789;115479];
[52026;1;3;7;13;23;39;23;21;55;543;1539;3055;7825;2865;8967;56719;117219;142137];
[52036;1;1;5;13;1;29;81;11;509;61;1681;1911;829;10583;7105;42047;128579;48891];
[52082;1;1;3;13;7;27;81;89;129;239;309;1353;5265;12255;29391;1659;114857;43551];
[52127;1;1;7;13;23;15;9;93;35;839;549;1793;4693;13295;10603;18179;33141;239555];
[52145;1;3;1;7;17;5;11;193;143;579;1199;1239;4503;15855;23345;34789;59427;235319];
[52157;1;3;5;3;25;63;11;203;415;135;261;1843;3409;4605;15213;28537;75787;100007];
[52165;1;1;1;5;3;37;29;157;213;235;959;1087;2843;10265;28233;14281;25867;204031];
[52193;1;3;3;7;19;49;55;111;253;823;533;941;2509;5595;9267;28457;84301;165385];
[52211;1;3;5;9;5;59;13;85;339;889;597;3517;7001;5525;25451;13855;19033;182677];
[52213;1;3;1;15;23;29;31;105;353;825;1977;2013;131;1969;427;16465;90817;257931];
[52218;1;3;1;3;29;9;109;243;321;15;1479;787;4667;13925;7347;7977;105585;143959];
[52220;1;1;7;15;5;45;11;95;215;719;827;77;7263;5705;26971;26845;82127;2849];
[52238;1;1;7;9;5;43;103;133;203;127;2021;3609;6971;13447;27089;62287;104391;147901];
[52240;1;3;1;3;3;41;61;101;381;985;1795;2465;2899;13517;23953;38831;43569;128643];
[52243;1;3;5;5;9;49;13;7;215;85;1203;647;6627;1861;17901;40203;13007;84975];
[52250;1;3;5;15;31;13;55;89;397;641;1599;3379;3401;4173;5757;42945;59269;106891];
[52279;1;1;5;13;25;17;45;27;151;725;819;581;3675;3983;9499;47511;128039;56825];
[52285;1;1;5;1;7;11;65;63;301;927;409;3729;7227;12849;17855;36527;2907;66819];
[52306;1;3;3;3;29;35;39;1;349;429;805;3639;3909;4211;10393;36223;72543;136375];
[52370;1;1;1;9;23;27;25;213;195;455;883;3357;7277;9061;14103;6005;35031;72703];
[52432;1;1;3;3;11;17;19;181;25;775;897;3809;2031;13017;7505;37469;107335;174309];
[52457;1;1;7;13;7;1;57;27;159;465;533;3409;3863;14001;8011;25873;14971;67243];
[52466;1;1;3;11;19;5;11;19;75;489;1879;1539;6563;4729;15605;35203;47993;110139];
[52514;1;3;5;9;23;17;67;89;379;849;1667;955;1537;11781;9791;46959;79481;237335];
[52557;1;1;7;9;3;31;127;145;29;35;463;4009;4427;16215;12093;50085;51259;45091];
[52560;1;1;5;9;25;3;1;131;221;951;117;3227;797;7617;13243;50139;26737;105875];
[52585;1;1;5;3;11;5;7;155;211;865;27;3943;7923;9973;23233;37399;89951;106555];
[52586;1;1;3;13;21;61;77;121;227;527;1641;3535;3801;7221;6423;9179;114935;33373];
[52603;1;3;7;5;31;7;123;159;367;369;1905;1689;6773;675;30289;54149;71469;232835];
[52650;1;1;1;13;9;23;83;237;251;941;781;1489;6037;6001;15909;50527;60143;238499];
[52672;1;3;1;11;5;7;103;43;413;247;535;2107;1801;16381;32529;2355;39143;71281];
[52681;1;1;7;5;5;31;19;11;191;643;923;1661;2215;11817;23937;62907;128301;21459];
[52692;1;3;7;15;1;51;123;61;99;751;1819;1191;3865;8765;7131;33965;55697;87059];
[52735;1;1;5;13;5;57;41;103;135;207;517;3995;2537;15705;9123;26193;30653;190549];
[52760;1;1;3;1;23;5;109;209;407;143;943;2325;8087;559;23675;31815;43805;67497];
[52772;1;1;5;9;25;33;13;21;93;357;1551;739;5595;16285;30761;54075;75505;177333];
[52781;1;3;5;11;17;59;31;249;95;561;1849;4061;5577;2607;30083;59033;56697;89761];
[52793;1;1;3;13;27;57;9;17;323;813;1197;2775;3443;9523;24509;12129;89697;169043];
[52796;1;3;5;13;17;51;91;1;105;345;829;1365;2755;7197;26655;1303;52223;133893];
[52807;1;1;7;1;31;3;51;21;327;851;153;3329;3393;8489;5879;25035;124403;172657];
[52821;1;1;1;5;3;21;61;29;99;343;621;3163;3763;9347;7691;34667;24555;125819];
[52849;1;1;1;1;3;17;83;191;83;315;1091;589;5081;4611;15521;25791;9103;13741];
[52866;1;3;5;3;7;53;9;227;399;857;673;3027;5045;5573;7467;4813;99659;142845];
[52868;1;1;5;11;23;37;71;151;279;879;601;2391;7091;12669;10203;11747;9613;248261];
[52872;1;1;3;3;29;25;33;25;1;683;1475;457;3641;14219;20105;21449;6903;43819];
[52875;1;1;7;7;5;1;73;79;357;971;699;1105;1683;1687;32677;62467;47671;88149];
[52886;1;3;1;15;23;13;93;75;307;81;1607;1333;6969;7747;27135;58941;26355;5565];
[52890;1;1;7;3;27;35;85;195;421;999;1721;2029;283;13995;21649;7519;73357;193171];
[52896;1;3;7;15;17;63;21;187;475;671;1681;2731;8169;3327;19789;53295;43219;6949];
[52925;1;1;7;13;9;33;47;115;295;123;1293;1627;4261;4503;15925;16521;81759;247089];
[52931;1;3;1;13;11;15;83;129;409;465;873;1333;7939;973;2753;33727;128975;43333];
[52937;1;3;3;3;27;59;1;137;145;29;1189;2615;3249;11197;17165;32313;14065;44199];
[52938;1;3;3;11;17;49;107;111;45;963;1129;1775;7671;1495;14531;49743;63321;159841];
[52952;1;1;5;9;5;11;79;99;155;347;1777;3793;1765;2319;3135;30237;100845;52689];
[52979;1;3;7;13;21;57;71;207;149;161;265;991;6967;8905;21581;13921;79201;95667];
[53013;1;3;5;15;13;53;95;81;443;161;1071;2749;6637;837;15015;62397;33295;112005];
[53023;1;3;1;1;31;25;37;111;79;293;249;1523;1509;1993;17167;62939;118281;62699];
[53027;1;3;7;7;5;33;61;179;265;405;287;1899;437;1609;19617;41093;36341;176593];
[53033;1;1;5;3;9;33;97;45;23;807;1575;627;7465;4805;11191;35439;69433;47275];
[53039;1;1;1;5;1;51;51;247;453;449;1487;141;2501;8039;14749;63733;91963;232951];
[53041;1;3;3;13;15;7;81;211;445;15;899;835;5163;3403;7367;29963;80413;87209];
[53048;1;3;1;11;25;43;113;139;381;391;485;1503;4195;10109;13771;35865;50909;224887];
[53073;1;1;7;9;9;51;21;85;137;765;951;2453;227;9177;1457;47937;84203;118987];
[53095;1;3;5;9;1;1;21;41;133;317;519;2249;3453;2957;2029;54737;42515;176017];
[53099;1;3;1;7;9;27;79;193;209;281;267;1267;7013;13667;13331;32863;5289;15077];
[53120;1;1;5;11;29;3;3;177;75;485;1735;3955;4349;7893;13075;58735;8629;78143];
[53154;1;1;7;13;3;15;15;77;7;843;1561;461;6817;4363;7861;45697;115663;93789];
[53168;1;1;1;7;5;35;83;213;229;383;747;337;2589;683;18575;42415;74889;227331];
[53192;1;3;5;3;17;35;57;213;247;273;689;1889;5667;357;4267;11611;20621;159039];
[53205;1;3;3;15;7;55;25;83;293;939;1169;2507;3939;7537;2959;40231;124511;181091];
[53206;1;1;5;9;31;51;67;149;509;695;449;2761;6597;4741;4205;49177;45599;167807];
[53234;1;1;7;15;3;7;113;71;279;885;251;2831;855;6673;6511;63861;41109;177119];
[53246;1;1;5;3;7;23;125;11;217;1023;549;529;3891;10595;13751;37729;113469;110549];
[53253;1;1;3;15;21;9;13;63;93;635;659;2837;6303;10083;10107;27859;33891;181229];
[53263;1;1;7;3;3;43;5;149;353;353;565;2441;7113;6493;30355;17887;110787;187199];
[53275;1;1;3;7;19;43;99;63;169;743;185;3817;6677;5549;1609;24701;98669;233701];
[53313;1;1;1;1;21;49;73;169;223;551;553;917;4705;14951;14031;19753;96205;131755];
[53331;1;1;3;3;17;49;51;249;293;921;435;2915;3125;3487;11417;35043;29543;35933];
[53349;1;1;3;9;23;43;73;151;379;911;671;151;955;11885;28795;23967;117135;137985];
[53367;1;1;3;7;29;3;51;231;59;227;443;3533;7785;12535;25725;7451;9391;239281];
[53383;1;3;3;9;17;37;91;195;5;843;313;1417;1207;3225;15949;34023;1275;221057];
[53392;1;1;3;15;3;51;111;135;63;495;1967;2151;197;10913;20705;1021;68431;67119];
[53404;1;1;5;3;7;29;87;219;273;267;1317;797;6723;947;29867;32571;12337;234715];
[53407;1;3;5;15;1;9;91;63;97;107;451;4025;233;7803;17031;7669;49417;256611];
[53411;1;1;7;3;17;17;45;197;227;133;799;411;6739;8037;19553;53009;25201;107625];
[53417;1;3;5;7;3;39;25;95;197;127;45;173;3305;6575;19633;54919;35373;59509];
[53425;1;3;3;3;9;1;107;211;217;715;311;3641;8055;1;9017;29329;128467;46911];
[53443;1;1;1;7;1;13;13;79;259;533;1761;449;3363;3061;26227;50407;122951;261425];
[53469;1;3;5;5;29;19;41;7;25;203;587;3321;655;15877;10423;41481;70325;165527];
[53480;1;3;5;9;11;45;91;253;7;137;795;2379;4527;1677;5081;6523;97245;3691];
[53508;1;3;7;9;25;43;125;243;391;785;651;3245;7979;14689;15443;40501;5519;96551];
[53535;1;1;1;3;25;53;45;159;47;701;1655;2019;2355;11213;12403;42291;44925;72689];
[53536;1;1;1;5;21;19;77;31;3;161;149;3759;6331;12311;7021;1117;12459;134821];
[53542;1;1;3;9;9;59;23;255;437;625;719;3727;7157;1889;31523;59127;114143;174179];
[53563;1;1;1;15;23;7;47;137;77;519;1681;1159;6121;14789;21343;43101;44709;179863];
[53577;1;3;1;3;17;27;103;11;327;735;1949;3719;811;2267;13187;29747;98433;242021];
[53591;1;1;7;15;15;63;25;203;109;585;409;4093;6669;2381;30721;58975;17235;257959];
[53607;1;3;3;5;5;19;27;69;69;193;693;1169;6321;3425;9285;28019;128343;185165];
[53626;1;1;3;9;7;51;113;93;81;385;1811;2601;2065;1029;24515;7199;26425;174283];
[53628;1;1;1;5;29;55;93;219;281;887;891;2763;6083;9627;18559;21329;73887;83699];
[53638;1;1;1;3;21;31;49;173;15;177;1001;3453;5623;14107;8837;10163;26817;41947];
[53675;1;1;3;5;27;63;117;49;405;281;981;2363;1525;9685;29089;16739;66509;125823];
[53685;1;3;7;13;27;29;57;189;345;135;753;463;731;4823;14335;33299;105229;54705];
[53692;1;3;1;1;9;43;51;25;371;261;1409;3493;2811;12915;16075;62159;125945;108453];
[53703;1;3;7;15;13;33;47;53;263;669;1383;3059;4043;4777;14679;2077;11019;5803];
[53722;1;1;3;11;21;7;39;71;215;79;1849;1261;45;1273;27591;4653;25119;30445];
[53738;1;3;5;9;21;3;17;207;417;777;37;3349;2761;4469;3457;15593;87251;38601];
[53748;1;1;7;13;29;29;101;103;487;87;1129;2497;5501;4813;8623;25077;50487;94053];
[53752;1;3;3;11;7;23;95;245;127;55;431;2707;4955;15871;29589;60023;1921;227623];
[53764;1;1;3;11;17;61;103;59;477;99;1203;157;203;557;22921;47363;12853;144067];
[53781;1;3;1;13;15;23;51;109;499;841;1779;2515;2519;4945;20061;12395;9223;157901];
[53788;1;3;7;9;9;15;57;223;223;463;427;2145;1219;12639;28361;46019;128101;198479];
[53791;1;3;7;7;1;1;99;101;135;169;1885;3979;3051;13649;26607;45067;4503;74087];
[53816;1;3;7;5;17;63;27;45;447;759;1099;3407;489;2719;31577;10355;126835;203439];
[53824;1;1;5;1;21;19;1;239;433;531;1181;2021;423;3235;8457;44459;117401;63545];
[53830;1;3;7;13;21;39;25;65;405;785;137;2899;3255;11165;7827;46425;89063;102787];
[53839;1;1;1;11;25;3;39;61;395;35;2001;3201;2233;9625;26489;54167;88495;127441];
[53844;1;1;7;7;3;27;11;49;117;711;1881;1457;6759;10517;12733;47435;103111;237237];
[53875;1;1;5;5;1;61;121;155;223;733;1349;2825;2093;4481;21389;40227;20453;116907];
[53921;1;3;7;7;5;11;85;131;345;723;853;3679;7859;11923;16619;63169;127261;155665];
[53922;1;1;5;1;3;51;93;225;197;893;555;2611;6225;7819;31655;12235;24919;31451];
[53927;1;1;3;3;11;23;95;205;85;705;545;155;5533;14837;8341;42473;96891;70695];
[53948;1;3;3;5;17;31;99;187;219;275;685;2933;4535;13495;20351;60667;95211;129233];
[53956;1;1;1;11;9;11;123;231;127;199;733;2495;2601;10565;3155;45251;128319;187457];
[53990;1;3;1;9;3;33;41;109;279;851;1115;3773;2383;1885;6993;59693;69863;88081];
[53994;1;1;7;13;3;27;27;203;337;965;959;1125;2897;8653;15827;51187;12121;4665];
[54001;1;3;1;9;19;7;23;113;257;671;571;1061;4353;217;13603;27961;68431;147187];
[54016;1;3;5;9;25;61;7;139;237;859;761;2005;5981;153;6553;53005;72653;33571];
[54019;1;3;5;5;9;35;63;149;427;65;635;1955;1845;13781;9761;36147;91479;141305];
[54070;1;1;3;5;13;39;53;113;481;933;239;3713;7453;12363;14763;46955;108545;74349];
[54074;1;3;1;7;13;41;57;225;213;617;1947;2855;4885;8553;20259;57125;59369;178553];
[54088;1;3;5;15;31;31;19;87;461;403;1193;2123;4991;14551;17153;14171;17157;194879];
[54102;1;1;5;11;5;27;119;65;111;455;1949;3441;6951;6819;12839;6913;57695;145925];
[54111;1;1;1;15;19;41;55;45;33;559;589;3773;745;8515;32389;47797;145;105503];
[54130;1;1;3;15;13;53;35;223;247;893;149;553;829;5129;26417;15769;95411;6595];
[54152;1;1;5;3;3;59;35;187;387;3;847;3579;7869;481;23955;22191;21041;230449];
[54170;1;1;3;15;23;11;97;199;11;647;803;2391;5791;2223;22187;49675;87775;196871];
[54172;1;3;7;5;25;63;107;227;133;337;1767;2459;2987;10463;25001;17047;79901;222877];
[54211;1;3;1;13;25;5;47;109;473;389;1743;3951;4231;827;4189;29903;106909;152835];
[54218;1;1;5;3;7;61;121;189;303;21;957;545;7893;3217;25847;29371;100569;132393];
[54228;1;1;1;15;29;17;59;37;449;149;845;555;7603;11911;18477;23279;107167;160339];
[54251;1;1;7;5;13;27;43;167;443;445;2011;2179;2785;13663;21957;2455;18217;19303];
[54253;1;1;1;5;19;45;71;39;21;791;1467;855;3101;8267;15529;919;105313;75627];
[54268;1;3;1;11;31;25;57;177;211;327;679;771;7725;6123;23931;48223;9063;133319];
[54271;1;3;5;3;1;11;19;153;177;563;1919;117;5583;1519;16623;10871;15511;66113];
[54274;1;1;7;7;9;45;63;253;415;347;81;2991;2691;2383;15573;33783;12445;224107];
[54288;1;3;5;5;7;17;99;231;439;1009;623;833;685;6419;30313;56197;73239;260007];
[54314;1;1;5;5;5;51;97;239;267;629;1211;2175;5681;3107;11381;57047;120175;131285];
[54319;1;1;7;7;29;11;21;49;481;279;1795;1295;453;15985;19941;51853;15115;107271];
[54321;1;1;5;1;23;61;33;21;409;57;903;557;1673;2759;23705;4109;58865;233081];
[54324;1;1;1;5;11;37;79;15;213;485;1477;3925;3205;9267;22043;54197;57101;66185];
[54341;1;1;7;13;31;27;95;141;131;43;2039;2257;17;14427;5699;22263;86851;226283];
[54353;1;3;5;5;11;5;5;217;363;163;1241;3683;1409;1731;20973;63849;35041;94859];
[54366;1;1;7;1;25;61;67;239;369;319;1157;2435;2147;12057;4451;3005;31787;199653];
[54370;1;3;5;1;11;57;1;163;433;11;1299;1711;1601;4677;16481;25175;63893;41853];
[54420;1;1;3;1;29;49;91;15;313;533;115;4005;3157;10615;27915;52613;64447;93091];
[54423;1;3;7;3;7;17;103;67;237;595;1571;3421;3971;11123;145;52087;59273;21417];
[54434;1;3;5;11;31;37;105;205;377;243;841;3153;6847;14171;19947;61561;35;261753];
[54440;1;3;5;9;29;21;103;219;107;427;1841;2015;2919;5721;8631;48841;33281;35835];
[54454;1;1;3;5;25;27;67;65;305;677;1975;1049;7277;15279;30181;48941;119087;130265];
[54495;1;1;3;9;29;27;109;167;351;463;663;3155;919;10627;30163;62233;32927;210775];
[54501;1;3;5;5;19;9;17;93;33;999;1537;3045;3735;4625;31363;46075;80985;108331];
[54526;1;3;7;7;11;63;83;157;205;505;657;1901;1405;8349;16473;29397;130379;167963];
[54639;1;3;1;15;25;49;65;189;461;923;1839;2597;2471;14103;2915;48429;74387;243465];
[54653;1;3;7;11;31;47;109;21;205;343;1999;315;8119;15937;8761;55257;99983;131641];
[54667;1;1;3;11;3;23;73;125;17;967;1811;1413;4783;8303;25301;26859;90583;140721];
[54678;1;1;5;5;25;41;49;127;391;381;1575;1697;5205;12805;24365;20275;58819;167845];
[54700;1;1;7;11;17;53;51;35;383;931;359;2863;119;6683;26247;14281;49205;256869];
[54717;1;1;7;9;23;5;69;97;407;15;579;2905;47;6227;23997;42459;26569;225467];
[54780;1;3;3;11;7;3;125;87;347;79;1571;1513;285;12101;1731;27887;42009;173243];
[54801;1;3;7;13;3;5;99;29;77;873;1111;1451;5493;10669;22597;54437;55521;101617];
[54813;1;3;1;3;3;17;41;215;207;71;683;1979;4849;2437;5717;28999;55005;233929];
[54814;1;1;1;1;23;21;105;223;5;235;1533;3715;2689;13937;12125;63879;111537;39817];
[54850;1;3;3;15;25;47;71;229;21;563;1851;2423;131;4431;31567;8883;1311;227893];
[54883;1;3;5;11;7;23;19;59;397;315;1149;3595;5973;11027;5233;55237;102777;137421];
[54907;1;1;7;9;17;61;45;235;387;171;1079;3119;6933;3591;751;35495;49969;204611];
[54919;1;1;7;7;21;7;105;79;81;245;1229;409;5159;9815;6713;4687;120541;246133];
[54931;1;3;7;13;23;31;85;97;481;497;581;1179;243;1767;11855;11599;3141;104741];
[54933;1;3;7;3;3;45;15;29;413;631;273;1007;2979;11307;24535;9305;83591;77121];
[54991;1;3;7;15;21;55;11;169;417;631;141;1489;3371;16073;11215;15479;125341;131731];
[55003;1;1;7;5;13;33;7;121;295;191;497;2233;997;13833;14503;38357;79007;53985];
[55009;1;3;3;3;29;63;97;27;449;643;317;1989;1481;2873;21247;35989;61295;101829];
[55030;1;3;1;7;13;49;27;227;21;983;179;2761;2859;2851;26447;33295;126963;41441];
[55034;1;1;5;13;27;1;61;115;185;867;2017;2257;5035;7855;25849;48189;28287;133261];
[55039;1;1;7;13;27;17;13;205;379;717;247;3341;2841;10845;26979;5589;1935;48371];
[55048;1;3;1;11;9;51;25;185;65;643;1867;3825;3395;8883;29239;20019;19071;3377];
[55059;1;1;1;1;11;57;61;113;419;249;153;2883;87;7919;11941;46725;38701;73715];
[55061;1;3;3;11;3;15;19;87;27;839;463;1757;3137;10821;2857;58101;91983;137045];
[55068;1;3;3;1;25;25;15;93;359;5;53;647;6245;1957;4651;14697;12193;231303];
[55077;1;1;5;9;31;49;69;223;133;595;777;1281;727;6671;21453;14193;51769;258301];
[55122;1;3;5;11;29;37;75;17;229;121;313;2873;5233;13231;7589;40075;42101;137697];
[55149;1;1;7;1;31;9;15;63;149;5;1785;21;2619;15071;3243;58023;20697;205181];
[55157;1;3;7;7;25;61;59;157;251;303;1905;2389;1681;319;14155;49089;45381;124447];
[55158;1;3;5;5;25;27;41;125;105;867;365;117;7215;2887;28499;9597;105999;150189];
[55178;1;1;5;13;5;33;47;221;207;641;525;3215;5293;16343;16169;44393;26305;194411];
[55222;1;3;5;13;29;17;31;77;511;465;1141;597;5111;6629;14557;13057;11643;250925];
[55234;1;1;7;11;1;5;65;139;471;265;1145;965;47;10971;15615;62031;58523;175593];
[55236;1;1;5;1;23;61;57;139;377;843;79;2873;1823;7551;26741;63031;124879;115295];
[55251;1;1;5;13;9;19;1;61;331;1015;1035;1691;4057;6071;24929;39569;95695;39307];
[55269;1;3;3;5;23;17;13;65;381;893;1879;3735;1547;6735;30251;11471;102997;126429];
[55270;1;1;5;13;1;43;15;1;155;221;1463;3793;6467;7221;28027;55357;69397;87565];
[55284;1;1;7;3;17;9;71;75;77;639;1251;701;473;12337;1893;6349;10837;27797];
[55309;1;3;5;11;11;11;125;23;161;937;707;2487;695;8495;16219;33671;109463;248305];
[55322;1;1;1;11;5;49;15;47;393;407;39;1867;7727;12701;7805;119;77401;186421];
[55334;1;1;5;5;19;21;77;187;387;51;1497;1225;3101;791;529;4321;118435;112889];
[55340;1;3;1;13;27;17;11;63;201;909;1549;3243;1803;9461;20985;24637;100993;200473];
[55348;1;3;7;13;11;35;97;213;415;467;2013;2159;7017;7895;18235;50659;113169;141887];
[55377;1;1;3;7;13;21;119;109;471;323;277;1685;2399;14777;2643;5879;113043;45223];
[55430;1;3;1;13;19;5;1;75;499;297;1897;591;3223;12939;30593;4053;122207;215171];
[55433;1;3;3;9;21;11;29;205;13;381;569;599;7089;8145;18531;34477;101057;64269];
[55441;1;1;5;15;1;19;37;131;325;441;3;4001;6937;9207;27543;30321;37083;241019];
[55470;1;3;7;13;7;15;9;159;97;905;557;1913;7325;4057;19461;14277;36873;25619];
[55535;1;3;5;7;3;51;99;9;185;227;2041;331;3925;12481;17485;37137;3753;125269];
[55561;1;1;7;11;31;49;89;37;49;863;833;3263;351;6277;23055;49727;25005;161585];
[55567;1;3;5;1;9;35;89;101;117;365;1015;1159;4623;4541;6831;28091;10647;221415];
[55597;1;1;5;5;13;47;125;209;199;885;927;1411;795;8835;28589;48753;27191;53455];
[55630;1;1;5;9;7;19;3;87;157;121;1433;1463;3241;5969;203;36723;14779;63949];
[55648;1;1;3;9;1;47;71;113;405;561;1149;3599;4173;6819;5493;45987;41521;221503];
[55653;1;3;3;1;3;55;101;103;161;549;457;2529;2043;8843;5677;7449;45185;178289];
[55657;1;1;1;3;31;25;1;161;7;503;641;2221;749;1521;6151;19245;55913;80141];
[55665;1;1;1;9;3;45;73;217;249;929;163;2139;3921;11223;11161;52697;89633;14243];
[55678;1;1;7;15;17;41;5;119;211;53;985;2679;679;9349;25577;26947;35141;93999];
[55684;1;3;1;15;17;43;51;15;363;615;889;195;6279;15477;31545;50941;119711;66535];
[55691;1;1;1;13;7;11;17;127;131;759;739;161;5937;13611;31757;10681;101357;82873];
[55693;1;3;5;7;21;63;75;33;233;981;589;3409;3523;1871;8919;38513;32825;56935];
[55702;1;3;5;3;9;9;85;221;203;727;1035;1069;2409;2687;235;23395;64163;193235];
[55708;1;3;3;7;1;35;119;175;203;819;207;2283;4175;3581;11647;43073;104573;86607];
[55715;1;3;3;15;11;63;59;153;279;779;261;3317;7671;11727;19381;33227;79331;187227];
[55739;1;1;3;1;7;1;115;15;235;9;1877;1911;1089;9939;9537;39563;95327;70323];
[55761;1;1;5;7;25;61;63;145;425;617;1813;3255;6797;16019;18849;44191;69877;179933];
[55767;1;1;3;13;17;45;69;247;27;367;871;1185;895;7991;8145;22869;97609;14673];
[55768;1;3;3;11;19;41;99;213;159;803;121;1197;2849;15191;15603;52445;105077;128231];
[55774;1;3;1;11;21;61;117;167;437;447;419;1673;755;15331;29819;16099;130773;177547];
[55787;1;3;7;7;1;15;79;109;351;71;985;89;7517;4175;30533;52125;100863;186477];
[55811;1;1;3;1;15;1;103;65;511;241;1279;3233;7141;255;10925;28271;56151;252121];
[55835;1;1;1;13;17;49;59;93;19;343;979;865;3447;4595;3067;26807;98915;126237];
[55894;1;3;3;5;17;5;91;199;191;775;233;919;277;3485;9231;37025;23493;186745];
[55897;1;3;1;1;11;5;103;187;85;47;1111;883;6155;15315;9041;58275;75037;7773];
[55904;1;3;1;3;19;5;7;211;481;713;383;1203;6089;15817;31577;7283;25457;101455];
[55931;1;3;5;7;21;9;59;127;375;477;721;3931;7089;9079;5015;62019;113747;36055];
[55950;1;3;7;13;3;17;47;177;103;535;1787;509;5253;2857;13421;19875;37397;251353];
[55961;1;1;5;7;19;31;41;93;301;45;251;2691;4657;2627;17321;24627;80221;117191];
[55973;1;3;5;7;5;31;27;3;463;549;1669;499;815;4091;7049;60957;102849;235617];
[56078;1;3;5;1;21;31;57;201;503;977;893;3927;1605;8265;5137;51009;89375;237909];
[56099;1;3;3;1;27;5;11;81;445;229;5;543;3397;12961;31911;36945;59485;305];
[56105;1;1;5;13;31;63;39;171;243;39;1147;459;7215;14603;20625;47369;121495;237741];
[56119;1;3;3;13;15;63;39;23;305;685;1885;571;2657;16031;24759;10639;25619;246137];
[56133;1;1;1;5;19;33;5;187;167;725;1405;511;701;13283;3513;16495;8755;221751];
[56168;1;1;7;11;3;27;27;237;495;637;479;3247;3825;2567;12853;52881;34807;161483];
[56191;1;3;3;9;23;43;101;175;19;443;787;1053;4113;12777;4615;53115;2873;117383];
[56202;1;3;1;13;3;23;33;93;145;937;957;2463;827;383;16749;61567;10029;188159];
[56209;1;1;7;15;21;23;3;71;323;995;645;1189;1029;519;3479;13587;95641;215337];
[56215;1;3;7;11;9;17;101;59;421;417;797;3089;773;15959;18127;13681;104667;217433];
[56232;1;3;5;7;31;21;9;7;377;589;1497;939;5389;10997;22291;19639;72187;66193];
[56240;1;1;1;13;19;1;127;185;251;167;1289;2715;5885;12715;18261;36861;102721;246917];
[56260;1;1;7;1;23;41;19;151;125;465;813;1711;7933;13561;29737;59207;62533;124149];
[56270;1;3;5;9;7;13;17;119;425;877;1207;2211;2943;13921;28251;44143;112149;152341];
[56278;1;3;5;9;15;21;87;83;77;731;91;3091;5687;9647;2037;39031;106583;66533];
[56281;1;1;7;9;31;49;7;119;147;599;1191;297;1597;10723;16893;47387;106995;165409];
[56288;1;3;3;3;3;63;11;193;241;63;1671;2139;5689;13967;9239;7535;34237;140283];
[56303;1;3;5;13;9;23;65;247;473;825;109;1897;245;10517;8147;25989;96447;118689];
[56308;1;1;3;5;27;35;65;23;159;729;189;2661;4245;14377;21043;15551;2717;146949];
[56312;1;1;3;13;23;5;35;63;293;347;883;149;5145;10821;5813;24183;94711;64787];
[56320;1;1;5;3;27;3;127;141;237;535;1509;2755;5843;2379;19413;52345;100247;42571];
[56326;1;3;3;9;1;55;61;105;29;1021;1215;2157;7453;4643;26793;33553;2959;51485];
[56392;1;1;3;7;31;51;59;49;321;207;415;2115;219;5045;31133;17961;130779;28255];
[56395;1;3;7;15;9;29;31;185;111;959;7;827;7891;5449;22221;49933;2091;194683];
[56403;1;3;7;1;11;59;75;255;387;913;423;2915;5079;6363;5175;57977;5559;13257];
[56419;1;1;7;1;21;3;21;13;157;3;715;3525;7769;5333;25345;53473;44323;203167];
[56428;1;1;7;11;31;25;55;5;169;695;1599;2357;1427;14469;15223;34275;42605;23005];
[56450;1;1;1;15;19;51;117;135;297;831;329;3793;4673;3795;24185;52971;30423;68771];
[56452;1;1;7;5;19;33;79;77;315;29;307;1709;3489;14515;12477;58939;53753;165031];
[56485;1;1;7;1;27;57;119;207;355;279;1371;3917;2821;5285;12673;28973;54957;94001];
[56486;1;3;7;3;19;57;53;199;485;805;301;1337;5993;2187;30573;12045;101205;129841];
[56492;1;1;3;9;15;45;71;119;445;759;1361;1299;2927;2343;22085;53733;21241;1553];
[56498;1;3;5;3;27;11;1;239;497;343;1989;1463;2473;5191;6271;14129;124453;96817];
[56510;1;3;5;7;27;19;123;27;483;557;1545;1871;1297;587;1067;51259;119231;173659];
[56512;1;3;1;1;27;45;41;113;453;553;2019;2039;1709;13017;5497;34459;60295;229405];
[56524;1;3;1;11;1;57;51;125;261;915;1673;25;529;653;17247;64225;98991;248143];
[56530;1;3;5;15;25;27;31;1;463;249;113;1955;2223;5463;12281;20843;26495;256759];
[56545;1;1;3;11;27;33;57;205;89;435;1983;1165;3843;127;30179;63971;10211;105403];
[56551;1;3;3;5;21;49;35;161;273;205;41;1881;2013;12549;24859;55711;98235;237281];
[56565;1;3;3;1;15;35;95;1;221;675;385;2257;2531;2129;12895;11565;125977;51973];
[56580;1;1;1;15;19;61;35;55;9;721;499;2577;3001;14861;22293;56195;72855;166703];
[56587;1;1;1;7;5;25;59;175;81;989;935;2579;8183;1109;4645;53753;115795;105091];
[56589;1;3;3;13;7;55;7;113;197;763;1747;3291;1109;4391;18257;28563;97413;5847];
[56592;1;1;1;7;23;55;91;83;479;305;843;2055;3405;15243;31551;5275;8651;66915];
[56611;1;3;7;9;3;19;83;229;235;903;1495;1033;2729;14927;11847;22979;13905;84413];
[56623;1;3;3;13;27;37;83;193;475;439;745;757;7359;6683;5839;50765;6933;117411];
[56635;1;3;5;11;31;25;33;77;113;815;123;2721;2133;8995;15237;54565;5155;51235];
[56646;1;3;3;7;15;31;73;91;379;39;913;53;41;1059;25883;11769;63015;48125];
[56660;1;1;5;5;5;13;81;169;71;529;1429;2101;4069;5509;30283;40625;103673;183243];
[56680;1;3;3;5;23;39;39;237;445;567;343;2521;2287;1851;2315;59979;5015;243349];
[56686;1;1;7;1;1;51;89;229;187;207;245;3521;2987;4347;6997;62565;54397;140473];
[56716;1;3;1;5;7;59;45;161;457;655;1591;215;2213;15101;14791;40397;95811;126291];
[56749;1;1;3;1;5;23;7;199;143;561;1669;17;8109;11003;4535;8593;112021;223153];
[56790;1;3;5;9;3;37;111;15;235;697;385;2197;909;1247;26199;50661;100643;122577];
[56809;1;3;5;11;23;53;95;75;463;137;1511;3373;3071;547;22399;51891;9123;240925];
[56869;1;3;7;3;21;35;69;197;371;15;185;3539;29;15071;17069;34669;37023;189385];
[56884;1;1;1;15;5;21;7;5;201;881;841;827;503;3545;17771;64481;65105;209947];
[56887;1;1;1;5;3;31;83;201;455;169;1797;1769;1999;8629;14313;16851;64955;180631];
[56893;1;1;5;5;1;35;49;61;499;619;1509;3015;237;8979;3471;11513;80193;24135];
[56906;1;3;3;9;25;29;111;19;339;739;1751;2671;5399;5965;3943;45577;70605;203117];
[56932;1;3;3;7;3;9;15;147;177;545;161;2211;4653;15891;15939;19153;77827;245787];
[56959;1;1;1;1;25;47;37;159;273;825;1037;2047;7149;5517;699;49687;110115;159475];
[56965;1;3;1;7;7;55;77;231;197;381;2013;2421;7551;9955;21031;11365;48271;190147];
[56983;1;1;5;9;25;1;81;145;215;427;905;2307;6149;12777;131;57091;106137;24625];
[57018;1;3;1;13;13;63;103;245;275;745;841;2993;2083;8903;4499;55979;22323;244447];
[57023;1;1;5;5;15;11;59;181;191;219;599;59;1079;4445;16537;31127;103257;233855];
[57025;1;3;7;9;9;37;109;41;145;1001;609;551;6843;13791;15103;27851;7693;145207];
[57032;1;3;1;9;3;35;63;219;49;567;1537;1327;6487;16039;26019;13851;116929;175121];
[57040;1;3;7;15;17;31;27;91;241;229;485;2601;3859;12609;19847;31939;50815;235529];
[57046;1;1;5;15;27;31;3;47;69;427;95;1445;1223;2953;32343;6841;67851;79561];
[57071;1;3;5;13;13;37;19;127;259;139;1597;651;4845;6413;18205;56005;32107;140783];
[57091;1;1;7;5;15;23;81;195;127;113;499;733;5907;12107;18105;28113;16111;152327];
[57094;1;1;5;15;9;49;109;181;187;591;1625;3641;313;1225;11725;9047;30351;124301];
[57108;1;3;1;1;9;45;103;219;155;805;1775;759;1687;11415;21623;37831;18995;21667];
[57122;1;3;3;5;25;13;11;37;489;935;373;811;5045;3615;2111;22909;117155;69483];
[57127;1;3;3;5;9;45;71;87;265;93;161;2983;1023;3633;5965;9499;35653;219257];
[57168;1;1;5;13;21;27;101;231;85;469;1023;3735;5093;253;22585;61975;81041;4175];
[57183;1;3;1;7;5;41;105;153;391;5;1917;331;7679;14359;13177;40755;78669;133527];
[57184;1;3;3;15;21;61;87;63;227;195;1095;1629;7787;5887;20855;30203;61973;30627];
[57193;1;3;1;15;31;41;125;223;201;717;1309;595;5333;10585;32525;8597;92637;111073];
[57202;1;3;5;3;21;29;39;105;275;515;503;79;6715;14203;14035;20871;122417;243167];
[57235;1;3;7;5;29;41;3;89;165;879;773;3989;3945;4771;2809;59105;37177;193887];
[57237;1;3;3;3;27;1;91;191;135;257;527;2971;7117;6013;8735;52363;110617;96959];
[57251;1;3;7;9;3;63;67;67;231;23;1539;771;1485;4331;19231;50539;15081;75945];
[57289;1;3;3;11;29;11;77;67;497;861;21;2939;2463;14435;27399;19733;118207;60909];
[57349;1;1;5;5;1;11;117;55;485;877;1213;2231;2613;14027;18491;45431;113303;28457];
[57359;1;3;7;1;13;49;77;59;455;251;1033;3451;7641;389;3987;62361;90125;94569];
[57374;1;1;7;15;3;5;45;173;343;445;1871;2505;1385;2641;21299;35139;61781;101195];
[57377;1;3;1;9;25;27;89;123;473;901;1513;2585;5641;13123;22653;32985;15763;9161];
[57387;1;3;3;9;29;41;5;127;489;715;1981;3953;3557;10081;31913;52191;118727;4443];
[57415;1;1;5;1;19;57;125;33;253;297;265;2249;6859;14971;3519;24783;127491;210441];
[57440;1;1;7;7;31;1;47;175;305;933;679;317;7511;13219;9509;61183;58907;72905];
[57446;1;1;1;7;13;49;75;85;341;911;1217;3631;1849;9715;23193;947;106647;180455];
[57450;1;1;7;7;1;49;91;195;329;771;607;1707;2723;291;21393;6549;31645;151431];
[57469;1;3;7;5;17;57;7;231;247;217;1729;3231;7515;15341;18681;21733;28723;228187];
[57491;1;1;5;9;5;19;121;251;43;951;957;173;4863;5027;6781;29421;4877;47749];
[57503;1;3;7;7;11;33;107;233;329;589;869;913;7687;13223;27577;24379;13037;214713];
[57507;1;3;7;13;1;13;121;103;387;193;543;3085;4323;9885;24499;34985;45763;13107];
[57542;1;1;3;15;25;63;85;41;457;779;1199;2235;309;2549;3341;36265;17873;32361];
[57569;1;3;3;3;15;31;11;57;499;415;1625;1195;6863;6073;25083;57705;76203;130993];
[57599;1;3;5;5;21;13;43;161;255;31;1901;3325;3209;9809;8227;9005;57263;95095];
[57601;1;1;3;15;13;33;5;123;291;579;1747;3319;7351;1679;11365;26909;74445;139017];
[57607;1;1;3;13;17;39;1;253;487;935;1711;1397;503;7817;28509;20665;78551;204319];
[57608;1;1;3;1;5;39;123;105;305;77;63;3285;7463;11199;647;37757;91083;108325];
[57625;1;1;7;5;9;49;121;155;389;119;1327;3583;7715;2705;20047;19151;101455;205263];
[57644;1;1;5;7;31;23;13;109;103;41;433;3609;4973;11481;8381;4725;113633;134651];
[57662;1;3;7;7;25;25;107;189;89;625;187;2185;713;10107;11139;63681;97005;79329];
[57664;1;3;1;11;3;41;43;161;337;955;1035;451;5989;3593;18087;22667;110213;128545];
[57674;1;1;5;1;25;31;95;113;205;565;557;3885;7163;10703;27159;11395;117459;52439];
[57698;1;1;1;5;27;31;39;61;323;983;1361;2387;5401;8287;17855;49783;65327;202861];
[57700;1;3;5;3;31;39;105;113;183;311;667;945;3677;14623;27907;16673;77899;182863];
[57709;1;1;5;3;17;27;99;93;81;805;1799;2855;6859;3917;26177;22307;59213;210123];
[57724;1;3;5;1;19;37;51;65;495;229;229;1283;2967;5329;24339;58739;23145;7033];
[57728;1;3;3;15;11;51;121;41;75;845;1771;3625;6137;3463;11767;45181;70907;42771];
[57740;1;3;7;9;15;25;55;219;265;655;167;1247;5409;5623;21045;12333;25799;218601];
[57745;1;3;3;13;31;39;77;155;471;969;755;2745;3057;3621;32423;48687;9409;90997];
[57751;1;1;3;15;27;1;77;231;147;235;2027;4045;7431;14655;6361;43155;9839;161713];
[57774;1;3;7;5;25;19;25;75;415;931;457;3691;687;4849;15469;42871;37949;74163];
[57782;1;3;5;9;17;19;29;117;387;1021;1159;2467;2585;2563;9155;44763;93319;6321];
[57796;1;3;5;7;25;33;127;175;143;705;539;2563;945;11369;19971;19019;116195;84121];
[57803;1;3;7;7;5;55;29;1;419;715;1275;2983;7853;12245;32109;27371;123547;82723];
[57823;1;1;1;13;3;29;31;213;195;609;1465;1711;6747;13309;1131;3151;48779;91571];
[57863;1;1;5;3;17;7;103;7;217;87;1641;833;4551;14205;15119;6711;111273;200545];
[57894;1;3;1;5;3;39;99;15;433;895;165;4049;3183;4385;24695;40009;67151;156643];
[57925;1;1;7;3;29;9;15;27;109;1019;327;2837;5297;12455;2355;37703;122995;177871];
[57971;1;1;5;15;29;5;121;117;31;155;1027;1105;8057;8677;9523;3019;98801;15539];
[58013;1;3;7;3;1;1;37;67;471;317;1571;2801;7383;4339;8095;45685;95885;39577];
[58020;1;3;7;13;17;13;91;79;49;321;1235;311;129;6537;6643;25813;48251;138823];
[58032;1;1;5;3;21;19;67;61;153;611;1819;3755;5959;3419;6117;1159;68925;146199];
[58038;1;1;7;9;23;3;7;13;429;463;653;3461;6337;4511;18097;44837;99845;37101];
[58061;1;3;5;13;9;5;123;199;83;409;1391;1567;7327;8173;30971;18241;7755;185375];
[58069;1;3;1;7;19;51;51;23;85;923;1969;2329;7343;12489;16135;64783;117063;141071];
[58080;1;3;1;3;23;29;5;77;207;351;367;2097;2639;9255;21971;64167;98069;81153];
[58089;1;1;7;15;27;1;83;255;47;935;567;3573;3629;5833;483;1001;9337;119847];
[58107;1;3;7;11;31;53;25;35;463;51;401;3279;7709;11265;17905;40423;26277;43355];
[58121;1;1;7;5;9;15;73;217;239;405;1651;2131;6791;11241;21717;7393;77251;28131];
[58130;1;3;5;3;13;43;115;159;215;811;1349;2941;2073;1821;6891;17285;72027;137849];
[58146;1;3;3;3;15;11;29;53;307;409;1069;3713;3205;6185;2565;14973;46149;162527];
[58190;1;1;3;15;21;39;61;209;211;123;697;2285;859;2501;5847;56449;106575;261069];
[58195;1;3;3;5;25;21;39;131;189;747;1499;1865;3369;9161;12543;63155;70083;69441];
[58202;1;3;1;15;31;43;127;57;169;109;979;1399;3065;5865;16891;56003;14319;94109];
[58237;1;1;1;13;23;57;13;239;139;41;1959;429;209;543;21297;15343;16521;52305];
[58253;1;1;7;1;17;1;115;139;93;123;867;3257;8135;12089;1503;33287;79283;151419];
[58299;1;3;7;7;27;17;15;253;89;959;597;2193;3505;13865;2179;58711;114615;15227];
[58302;1;3;7;5;1;5;105;241;361;229;1069;3815;1409;4909;31785;46555;123523;53259];
[58327;1;1;5;5;15;49;13;195;467;285;1405;3011;2069;8331;13953;31107;46581;154615];
[58328;1;3;5;7;21;23;17;17;345;369;1521;3755;2165;15387;2851;11115;60483;236049];
[58364;1;3;3;1;5;41;53;239;127;237;609;927;3787;5059;1865;52991;56229;102093];
[58367;1;1;7;5;23;7;15;199;325;695;1525;3435;3997;11577;22985;57713;94309;218433];
[58375;1;3;3;5;25;25;61;99;237;447;1905;783;5239;11415;16833;27815;115539;161111];
[58394;1;1;5;9;31;49;55;199;159;751;849;1045;5485;8883;8549;11735;35983;161067];
[58405;1;1;5;9;23;51;79;171;87;493;1911;3867;3435;493;16639;64085;97797;244959];
[58417;1;1;5;11;29;33;15;107;283;545;1995;995;7181;3581;8621;42391;117997;397];
[58424;1;3;7;13;31;25;91;75;123;451;1023;375;4505;13235;8913;34389;77385;168659];
[58430;1;1;3;3;3;3;85;143;173;709;1313;593;6931;14609;13803;30305;109089;11473];
[58452;1;3;7;5;25;45;25;223;407;597;83;2543;3823;13959;9089;28325;29237;57147];
[58466;1;1;1;3;25;53;57;255;231;361;109;113;6091;13043;28399;29111;57987;137709];
[58468;1;1;1;5;11;25;53;141;275;237;1427;1691;6043;8951;10683;17477;117645;89007];
[58495;1;3;3;13;7;23;73;213;285;667;1765;1545;1401;12483;6349;47205;25791;16749];
[58501;1;1;1;15;31;45;105;249;385;607;723;745;7037;15735;3637;29013;127315;165507];
[58544;1;1;7;5;21;63;95;247;161;839;939;931;4277;7363;8289;55183;122413;152997];
[58571;1;3;7;11;15;59;91;5;209;31;1581;979;6289;11443;26641;20183;106907;128647];
[58609;1;1;3;15;21;33;117;89;457;405;1971;2211;4379;16189;7933;39351;79813;56373];
[58610;1;3;3;9;5;9;93;75;55;271;321;3143;3893;2601;26169;35179;43063;156635];
[58616;1;3;3;11;29;37;95;249;221;965;423;1637;4663;14839;16757;4261;128453;165593];
[58619;1;3;3;7;1;55;31;235;447;839;721;1125;6503;4019;23351;37057;96103;143805];
[58641;1;3;7;5;31;39;7;157;469;719;1613;395;8133;9753;17323;13849;45409;7601];
[58642;1;3;7;7;31;37;89;215;453;659;605;3325;987;4611;29667;23229;4201;229675];
[58648;1;1;5;5;3;3;21;249;377;343;1751;891;5275;14853;32703;51001;6759;162991];
[58660;1;3;1;13;11;21;55;17;495;481;1817;919;2495;16367;3343;16997;83437;127791];
[58675;1;3;1;1;5;57;65;223;33;491;1953;1521;4903;5007;14583;17321;82231;206299];
[58678;1;3;7;11;21;45;55;141;185;379;851;885;3385;10311;701;2983;71045;171525];
[58690;1;3;7;3;29;1;53;139;7;985;291;3949;1163;14637;363;59679;121571;121081];
[58735;1;3;7;1;31;1;111;19;421;917;1529;1361;4461;12457;9791;19985;77283;117059];
[58760;1;3;1;5;7;55;93;243;477;193;1983;489;3735;1391;24035;36395;49101;175861];
[58766;1;1;1;11;3;25;69;167;351;193;1299;617;7455;2545;18359;9951;119513;128139];
[58799;1;3;3;7;5;23;101;47;385;591;345;3501;531;3277;28945;18695;58587;87221];
[58825;1;1;3;3;29;47;5;91;365;1;2015;323;1601;10615;28975;60263;4813;143351];
[58836;1;3;1;7;25;43;65;211;91;759;985;3675;5701;4373;27781;51949;40667;102665];
[58855;1;3;3;5;3;43;91;33;247;593;849;1955;7769;2307;2877;26037;28907;211021];
[58864;1;3;5;15;29;29;85;97;99;979;2033;1415;2955;15733;5567;6241;100195;89077];
[58910;1;3;7;13;13;19;121;211;381;73;1131;1881;1693;7873;27557;201;24997;202471];
[58937;1;3;1;15;15;33;11;99;479;271;1873;1117;3559;6605;15995;44805;12465;71933];
[58943;1;3;5;3;19;61;15;55;423;431;1321;3345;1633;4587;24909;54985;31831;181083];
[58952;1;1;3;5;29;43;49;205;415;907;1651;57;3043;10763;16255;9567;59453;135637];
[58965;1;3;3;1;17;11;29;33;293;203;1687;1565;6131;5435;29023;28425;102151;251913];
[58988;1;1;5;7;9;9;43;191;269;681;607;3045;2799;14919;8083;57781;19345;49365];
[58994;1;1;5;13;11;53;67;127;117;395;575;1651;2601;15019;21413;34433;66847;84159];
[58999;1;3;5;5;15;59;33;41;301;699;1479;2285;1813;2459;4775;53213;26039;223155];
[59006;1;3;1;15;17;57;5;211;357;175;945;3625;3943;12871;26805;29305;8839;107837];
[59029;1;3;5;15;21;41;105;229;265;777;2047;767;2901;8873;7631;18545;86697;252965];
[59033;1;1;5;11;31;63;115;119;271;921;1221;3341;6083;4293;28581;57323;33889;112577];
[59069;1;1;5;5;31;21;119;93;287;139;451;2535;3925;10671;21279;55071;76127;248203];
[59096;1;3;7;11;19;61;61;53;203;181;963;3581;519;14679;7717;31981;128709;197269];
[59106;1;1;1;13;25;23;89;95;221;803;1433;3617;3217;2033;7859;14279;107239;5139];
[59123;1;3;7;3;29;41;87;21;71;959;1149;2961;7471;11665;16037;5791;110155;35365];
[59130;1;1;1;11;21;49;101;45;311;529;1301;1377;983;3937;6967;8413;33511;9617];
[59152;1;3;3;5;15;41;107;49;409;537;289;3351;5307;16221;907;39847;61579;161487];
[59162;1;1;3;11;5;49;71;107;431;469;453;1367;7811;10485;3861;62797;82025;253785];
[59180;1;1;3;3;27;19;89;13;445;915;1259;1423;3987;3661;18183;18521;18831;191447];
[59183;1;1;7;5;13;15;9;89;129;949;1733;245;6815;8477;1273;34737;33027;191415];
[59195;1;1;7;15;25;63;83;195;319;987;1395;3559;6287;5139;25967;48711;58467;110983];
[59205;1;1;3;9;5;3;35;171;15;883;915;2451;871;11741;32715;33475;81711;259157];
[59210;1;1;7;13;23;63;33;11;117;351;1701;671;6753;5;9477;54701;65507;242621];
[59217;1;3;7;11;21;37;127;143;369;819;1369;93;7009;3773;30153;30181;120783;137857];
[59218;1;3;3;7;27;61;15;141;67;815;1449;1129;4703;3811;3067;61697;8881;110957];
[59236;1;1;7;13;31;21;59;75;335;851;503;251;4869;11789;30871;14641;19319;156843];
[59267;1;3;5;5;9;41;11;67;231;945;37;2925;5723;9053;13477;59735;75181;60335];
[59298;1;1;5;1;13;39;81;43;363;611;1661;3833;7387;10531;21319;55579;102705;103009];
[59318;1;3;1;7;23;25;67;179;327;401;1693;1453;4773;6363;27169;49747;29055;49145];
[59321;1;3;5;7;13;47;5;175;369;921;507;113;6069;10919;11099;19795;95819;52419];
[59327;1;1;1;5;5;53;93;47;75;837;109;3691;6961;10715;14269;63791;1941;136899];
[59354;1;1;1;3;1;63;57;117;157;327;879;2411;3987;15393;8503;29829;77795;121307];
[59363;1;3;5;1;25;5;47;45;433;121;607;1233;6433;3031;16369;58589;79357;151353];
[59377;1;1;1;1;9;15;77;163;225;445;1479;1267;2571;2661;21489;5433;123969;191967];
[59389;1;1;7;1;9;49;17;19;449;113;1289;2335;3309;2595;17819;18481;86605;125911];
[59403;1;1;5;11;11;23;65;147;257;625;1901;913;5711;8159;16237;25133;100059;11395];
[59420;1;3;7;13;5;33;89;189;171;185;751;2915;5025;15981;14853;12229;52829;59953];
[59444;1;3;1;13;3;37;15;87;463;655;1927;2705;1885;14801;3491;52835;81761;90273];
[59471;1;1;7;3;5;15;29;255;199;225;647;3215;6795;3821;31763;31059;65495;89981];
[59476;1;1;7;7;9;25;11;85;111;283;507;2077;2993;5415;31785;16495;82361;122105];
[59483;1;1;3;11;27;21;127;175;397;419;1115;2285;223;3881;4187;53759;115035;181647];
[59502;1;3;7;11;27;31;29;233;137;827;1009;3879;7595;12989;27655;8517;28083;214985];
[59509;1;3;5;9;25;23;85;191;475;445;621;1341;4045;4299;24933;32765;20219;86949];
[59538;1;3;1;5;25;35;121;33;199;405;163;3487;1087;743;21989;47273;49221;124831];
[59556;1;1;5;1;7;3;91;15;335;351;1311;777;4303;7203;19465;9135;32251;69805];
[59571;1;3;3;7;23;55;73;77;189;801;1877;1901;2675;1015;3041;35925;125903;126227];
[59592;1;3;3;1;1;23;105;75;435;743;651;1045;579;13637;14821;62683;95229;156475];
[59610;1;3;3;5;1;53;89;239;439;195;189;731;1805;15123;23315;47737;29167;112081];
[59654;1;1;5;7;31;11;119;191;155;61;247;915;5813;995;20093;23379;118969;65001];
[59677;1;3;7;3;1;61;45;85;295;269;539;1787;6639;11093;11303;18509;77637;200743];
[59699;1;3;1;1;13;17;75;51;199;151;1529;1443;4983;6723;6071;34711;39159;5441];
[59716;1;3;3;3;31;15;91;125;261;683;1769;1697;2761;11373;13607;24933;19079;55497];
[59719;1;1;1;15;21;49;117;99;29;969;463;3869;1251;8815;16443;46861;82839;233325];
[59737;1;3;5;3;27;39;89;225;161;63;61;2875;4037;10413;5067;27893;78825;250207];
[59747;1;1;1;9;13;49;93;11;23;25;2003;57;3065;11241;13935;2969;44235;39287];
[59789;1;3;3;9;21;5;55;247;193;523;575;1235;3277;5253;5293;7919;7573;168809];
[59807;1;3;1;13;29;39;43;21;511;205;303;703;3861;2467;3909;31597;51081;9863];
[59811;1;3;7;1;25;55;11;131;5;49;371;1683;1907;5661;1015;15171;101477;11221];
[59818;1;3;5;5;9;15;93;245;357;703;701;3675;4527;9225;16137;55433;81887;99153];
[59825;1;1;3;3;11;1;39;251;291;599;643;231;4031;7055;99;14039;81811;184251];
[59826;1;3;5;13;29;55;11;117;325;401;2013;3235;995;9255;2741;8211;71451;180619];
[59832;1;1;1;5;31;41;41;175;247;3;739;1391;3311;5975;16921;4291;75065;161745];
[59858;1;1;7;13;23;19;13;149;203;351;2033;1867;3871;14437;3793;17399;99577;171605];
[59860;1;1;5;11;7;9;1;195;261;977;315;3771;1179;16281;20747;56309;108609;209205];
[59873;1;3;3;5;19;15;123;153;325;601;393;753;93;4803;24343;42645;128209;45773];
[59876;1;3;1;13;3;29;97;95;115;539;155;2789;1277;13127;20383;52807;97295;54589];
[59907;1;1;1;3;25;59;27;149;365;317;773;3379;5931;14637;19881;37283;118027;21557];
[59928;1;3;5;3;25;11;101;221;199;689;515;2255;6107;6259;2853;19039;117089;107181];
[59933;1;3;5;7;29;63;19;113;249;147;737;3959;209;7001;24263;20443;99923;145709];
[59938;1;1;5;9;25;37;69;41;87;369;1913;2255;7581;5301;25751;24981;1183;171969];
[59940;1;3;3;1;9;25;55;5;267;295;43;819;4569;7065;31527;57811;48721;107707];
[59958;1;1;7;9;19;19;1;199;371;1003;597;2097;4071;6185;879;13545;30033;120313];
[59984;1;1;1;7;9;11;51;155;309;493;899;3121;2085;10541;21979;4725;70381;69643];
[60020;1;1;1;1;13;45;123;119;459;295;1005;4093;393;11063;27235;28209;1671;215619];
[60024;1;1;7;13;19;25;125;255;509;529;1577;3221;4051;7697;2065;42597;86295;131719];
[60033;1;3;3;9;19;13;21;199;97;949;1297;379;1801;13247;22563;49517;22757;87371];
[60034;1;3;3;1;17;63;109;175;301;565;1181;465;3457;7175;21225;33149;122169;148043];
[60063;1;1;1;1;5;7;21;251;53;369;955;583;4703;9729;15853;55701;29317;27];
[60070;1;3;3;1;31;3;53;57;231;441;109;149;8107;2303;29729;42279;46909;209877];
[60087;1;1;1;11;23;57;63;189;259;657;1653;1155;2885;3317;22559;3145;19151;172507];
[60091;1;3;7;5;31;63;103;147;287;685;1197;99;4907;12335;12001;20303;75503;231259];
[60105;1;3;3;13;15;33;63;11;99;299;97;2669;3635;9969;1525;36555;85215;86915];
[60126;1;3;7;5;25;47;25;61;227;939;1719;245;2389;14663;30671;22667;38873;245509];
[60132;1;1;3;5;25;15;105;203;57;961;1941;1241;3163;6203;19631;10383;19235;57569];
[60154;1;1;3;9;1;35;41;3;449;87;641;269;1529;14559;16571;4863;21625;921];
[60174;1;1;7;11;25;53;85;209;181;417;1657;2117;4581;7069;15533;64475;82381;146943];
[60181;1;3;1;7;17;53;5;199;347;887;1041;595;1843;10931;30559;42849;73723;220473];
[60198;1;3;7;7;21;53;105;21;141;575;1965;2187;7293;13675;2471;1259;42485;62911];
[60212;1;1;3;9;5;27;21;101;101;71;1215;3235;2451;14835;27817;30079;124301;253691];
[60247;1;1;7;1;11;37;105;127;115;157;279;2425;2139;131;22717;40803;74867;86021];
[60254;1;1;1;7;11;59;95;61;255;523;501;2895;7531;8151;18393;42069;120809;236537];
[60275;1;1;1;7;17;23;31;59;377;187;873;1565;3459;2975;11633;13247;13095;193803];
[60284;1;3;7;1;25;3;85;5;485;451;1385;1663;4825;14019;29437;33717;105343;161335];
[60317;1;1;1;3;27;43;71;167;425;579;1739;3557;7403;2023;6533;61177;119273;85229];
[60318;1;1;7;3;31;37;19;213;373;505;97;3669;7005;2205;26519;61999;18395;25967];
[60346;1;3;3;7;29;17;9;137;265;875;887;3029;3295;11619;8357;46241;23543;43191];
[60360;1;1;5;1;25;43;33;133;65;7;1581;3577;5997;6129;30649;18923;56459;227869];
[60380;1;1;5;13;27;45;27;111;429;565;1449;1475;6613;4469;16083;42349;66843;214875];
[60389;1;3;1;1;21;21;107;7;15;675;233;4021;1097;1393;6445;3323;102435;249355];
[60393;1;1;5;15;17;51;99;249;437;667;1921;2371;3813;10543;19;39079;116825;242821];
[60401;1;1;1;1;7;15;27;29;161;37;1847;287;4379;1399;24547;60361;68131;232883];
[60407;1;1;3;9;17;21;41;169;61;771;241;1435;4151;1789;12195;27239;62371;165145];
[60408;1;3;5;15;31;19;127;181;463;183;749;253;2403;1363;3965;7953;124025;226691];
[60462;1;1;3;7;17;57;85;89;17;33;819;2191;1525;15651;23483;26027;86379;40191];
[60484;1;1;5;1;9;45;65;65;359;5;531;2581;6313;13219;6005;36215;16275;208253];
[60505;1;3;1;1;23;15;51;43;85;461;773;219;2681;3377;9797;54469;112871;231533];
[60521;1;3;7;7;15;9;97;115;301;493;1085;2021;2305;15003;11381;9339;63015;179115];
[60527;1;3;5;3;3;61;111;103;283;7;143;353;7815;7901;25795;7577;92991;228315];
[60532;1;1;7;13;29;3;53;105;83;531;497;729;1375;7063;18655;35219;9671;102913];
[60545;1;1;5;15;11;7;65;31;15;921;743;1469;5669;5437;20019;28123;5717;6181];
[60546;1;3;3;15;19;1;3;183;315;595;1033;3259;7815;8281;32103;8699;59149;56657];
[60555;1;1;1;7;9;1;87;81;267;637;1617;2113;487;23;11213;29211;92715;177767];
[60563;1;3;5;13;29;37;31;55;343;759;813;2945;7189;4821;30661;38373;2793;98683];
[60586;1;3;5;7;9;43;113;145;103;303;1065;3781;3527;9449;17355;38301;74859;30735];
[60626;1;1;1;1;3;53;53;27;119;701;1777;3959;5911;8473;24997;17557;11593;201381];
[60637;1;3;3;9;3;3;107;115;423;531;735;931;8053;4661;1919;29551;62515;210255];
[60665;1;1;3;9;21;21;117;67;301;49;2025;781;7951;15719;27287;34551;115241;243981];
[60673;1;1;7;9;9;25;87;229;375;353;445;3169;1865;7305;11175;47081;28609;107301];
[60685;1;3;3;11;7;31;19;177;17;535;1353;2587;7723;8039;13607;5017;104937;207761];
[60703;1;1;5;3;11;27;29;193;235;435;1451;3487;5749;4825;9487;53933;92061;223305];
[60734;1;3;3;3;5;5;99;237;91;945;1373;3303;3079;5345;6843;34131;62851;259561];
[60742;1;1;3;7;7;25;11;27;329;37;307;771;659;13045;25767;18887;54407;251313];
[60790;1;1;1;11;29;59;37;121;281;55;495;159;3925;4447;14825;24831;103147;211951];
[60830;1;3;3;7;23;31;59;67;303;383;1179;2347;4001;14797;14579;55365;112239;65309];
[60848;1;3;3;9;15;17;61;123;339;319;765;1517;1269;69;9065;32347;21377;38449];
[60857;1;3;5;3;7;35;71;63;251;457;351;385;4041;11489;14511;11875;45307;205041];
[60871;1;1;1;7;1;25;115;195;41;1001;835;767;7991;7475;22397;36899;77255;194827];
[60875;1;3;3;11;7;49;45;13;373;167;741;2569;3781;1131;2909;40387;77877;201859];
[60913;1;3;5;3;17;11;123;137;65;835;1385;1157;7387;12301;5759;13137;30595;50923];
[60923;1;1;5;7;1;55;57;97;377;223;115;2515;2565;14965;10485;23957;108239;160707];
[60972;1;3;1;9;15;17;81;65;387;275;997;1485;4129;999;4915;55867;103799;191829];
[60989;1;1;1;5;15;5;35;167;249;419;267;503;469;3163;19939;65501;88573;11621];
[61001;1;3;3;13;7;9;101;125;371;97;1855;1755;4103;12283;18655;5965;17743;254779];
[61002;1;1;3;7;13;15;119;227;451;863;1005;491;6515;717;12783;14161;106249;185297];
[61019;1;1;7;13;17;23;95;143;133;219;897;2291;7469;923;22323;60583;2457;197231];
[61022;1;1;1;11;3;25;115;187;319;999;867;1725;6969;239;2527;55283;91099;252153];
[61059;1;1;7;9;3;37;107;25;425;95;631;2831;1265;11509;18865;39791;22281;220517];
[61065;1;3;5;1;1;47;121;173;489;241;3;3707;7081;5341;23143;7321;30605;191665];
[61066;1;1;7;7;7;27;23;43;145;11;1155;691;6993;9509;5991;40705;58215;202915];
[61071;1;3;5;1;31;1;7;189;379;431;417;3843;3885;3263;16333;58123;68307;33795];
[61076;1;1;5;5;19;27;19;217;509;535;287;1637;4829;2665;15393;35185;125335;10909];
[61141;1;3;5;7;25;13;67;243;255;1021;1203;821;7811;149;26731;12913;18171;101385];
[61148;1;1;1;3;25;61;59;207;449;789;1831;1731;513;10099;291;1963;100233;21847];
[61167;1;1;7;1;27;19;45;81;479;31;707;2669;3589;15411;12089;38235;60897;135451];
[61190;1;3;5;15;11;3;113;169;171;21;1291;2031;2023;5783;6137;54637;50247;233753];
[61218;1;1;5;1;11;13;73;97;269;801;1015;1329;1779;15225;24251;35191;8619;130993];
[61247;1;1;7;9;9;19;35;255;505;513;547;405;3065;4965;30877;50091;81319;29273];
[61256;1;1;1;9;7;61;45;75;343;911;1683;453;1225;10939;19901;63685;123507;252027];
[61289;1;1;5;11;21;55;37;161;143;463;1937;3349;2953;14827;7893;26581;128459;72325];
[61292;1;3;5;9;31;57;115;77;225;859;621;731;5677;759;20773;52285;65555;4303];
[61307;1;1;3;15;23;15;49;171;137;449;855;565;5579;5957;13643;8979;90327;116349];
[61319;1;1;3;5;9;13;27;43;391;595;731;101;7121;13555;29181;38273;42309;175297];
[61353;1;1;3;11;3;59;17;143;251;47;1391;1297;23;15871;13153;44081;65423;54875];
[61362;1;3;7;11;25;43;3;163;273;277;755;2743;5909;10841;31331;64131;13945;91557];
[61379;1;3;1;13;31;35;5;165;417;623;1083;1221;1051;8917;6725;11385;76315;119837];
[61382;1;1;5;3;21;53;47;247;471;877;709;2425;3;1963;24331;52151;98859;119033];
[61433;1;1;7;3;29;29;43;59;503;891;763;2927;1613;9091;10393;36003;61147;3437];
[61434;1;1;5;15;27;59;73;163;425;855;349;3451;5779;10523;9103;46477;129873;39091];
[61454;1;3;7;15;25;45;77;171;467;1017;1553;1877;5507;3909;12157;60441;98261;37781];
[61461;1;1;7;13;13;39;99;51;197;327;1101;2679;8025;11853;7763;62537;96999;88673];
[61475;1;3;1;11;5;61;29;219;471;387;319;433;5383;3933;27603;61171;104711;233295];
[61481;1;3;5;11;15;23;91;119;207;717;1333;783;437;13073;10923;27049;87233;174899];
[61534;1;1;1;1;13;19;109;139;183;299;1023;3265;5153;6307;27879;55311;95201;19481];
[61547;1;1;5;11;13;61;81;115;53;483;693;3527;5033;8527;31345;46155;12403;126815];
[61564;1;3;7;3;27;7;73;227;269;683;719;763;5417;9523;13625;6945;116225;223093];
[61568;1;3;5;9;21;51;111;157;451;247;1375;1631;2783;3371;22713;34153;41949;141351];
[61588;1;1;5;1;21;19;45;69;41;453;523;3163;7351;4467;18865;35371;129577;78039];
[61604;1;3;5;1;29;33;13;19;341;321;117;1187;7021;5785;5553;58055;113557;46957];
[61626;1;1;5;5;13;59;47;59;69;125;1491;2813;5005;5973;3145;27579;7763;129949];
[61645;1;1;7;11;11;7;117;235;407;749;1925;1735;4499;13027;19355;1981;105657;242853];
[61646;1;1;7;1;15;19;5;247;203;707;809;2085;5801;9947;569;9883;109861;156751];
[61654;1;3;5;3;13;59;67;181;261;873;1589;2249;7213;14625;28403;41101;73439;46873];
[61663;1;1;5;7;3;63;79;115;123;485;1373;3781;4315;4627;29003;64101;67521;184053];
[61669;1;1;3;9;11;57;93;243;505;189;449;643;5267;7447;32265;44095;63015;36905];
[61702;1;3;7;13;25;59;31;93;401;41;183;759;2473;8705;8211;13543;59749;235217];
[61705;1;1;5;5;29;3;65;133;325;239;649;3225;4095;11691;4479;15419;100551;261981];
[61714;1;3;7;1;17;11;63;97;431;161;1437;3679;1643;10583;20731;45919;94093;147067];
[61739;1;1;7;1;25;13;63;155;221;345;189;1199;5465;14767;26263;54093;23697;71231];
[61744;1;1;7;3;3;19;23;75;381;339;1989;1137;6449;1437;32279;17195;117423;259311];
[61749;1;3;5;3;27;45;117;113;129;585;2019;807;5573;7407;9957;8741;52333;115607];
[61776;1;1;3;7;9;5;77;9;417;725;429;1657;5445;1901;28745;26807;111743;169739];
[61786;1;3;1;5;7;63;51;183;117;383;435;755;7849;5997;32697;5789;5189;80645];
[61822;1;1;3;15;5;47;105;175;41;275;1441;3183;3651;9561;5749;20431;45969;59473];
[61826;1;1;1;11;13;35;19;129;125;35;339;3099;5337;15605;10213;1171;61869;216681];
[61862;1;3;7;1;7;25;23;9;431;73;1803;3969;7853;12845;8075;14553;124825;50561];
[61865;1;1;1;7;29;21;79;247;313;143;59;2689;5643;827;26597;56423;107903;180809];
[61868;1;3;7;1;3;3;25;39;269;529;67;3703;2163;12417;6307;29883;40303;171831];
[61879;1;3;7;13;1;19;71;245;267;105;749;1203;7953;1881;9273;4629;71793;195393];
[61885;1;1;1;15;3;49;53;145;47;959;1107;1361;4517;16055;32119;58433;110123;81487];
[61900;1;3;1;1;5;3;99;93;257;659;19;3789;203;6183;11571;54845;80591;243303];
[61905;1;3;7;1;1;7;27;11;255;261;769;2877;6013;8431;25669;43591;122501;208947];
[61906;1;1;7;7;3;25;117;19;15;843;401;613;801;10579;129;12249;107465;95953];
[61962;1;1;3;5;1;35;95;93;243;937;1543;3443;175;2199;12521;2521;87225;38631];
[61967;1;3;7;13;21;29;81;139;247;937;1835;3887;6917;15709;20947;3341;125521;247195];
[61972;1;1;5;11;31;19;111;215;191;347;1215;1757;6751;3099;755;43753;2813;159123];
[61976;1;3;3;3;31;5;35;87;293;581;1501;3255;7041;5233;2053;63403;37943;12115];
[62027;1;1;7;15;11;31;5;123;225;703;733;635;2193;3059;30933;43149;79409;106995];
[62048;1;3;1;7;11;21;45;135;99;883;85;3861;6617;7169;29887;329;42487;129001];
[62051;1;1;1;3;11;53;31;245;141;667;1615;3311;1475;12785;3509;47153;105747;141275];
[62066;1;1;3;15;7;15;55;13;465;707;1299;1393;399;9229;4897;50313;1275;131811];
[62081;1;1;3;15;5;57;43;19;335;929;459;327;5715;7173;27643;535;46221;144619];
[62108;1;3;5;1;9;1;63;187;71;899;969;1349;1553;15593;22783;211;41643;163981];
[62178;1;1;1;13;3;63;35;37;311;253;1393;629;5299;14837;15053;28041;81541;149037];
[62189;1;3;3;11;13;45;17;165;497;751;635;2939;6891;14877;32763;20671;106845;258033];
[62224;1;1;3;11;21;7;3;247;243;219;1651;929;2737;9507;31819;61389;14593;137207];
[62229;1;1;7;5;15;33;31;29;467;75;523;1067;7313;11715;26581;47037;106385;199859];
[62282;1;3;1;7;19;59;35;35;3;899;799;1379;5113;7653;17977;42197;52397;179705];
[62318;1;1;7;5;13;13;67;157;181;633;21;3107;6301;7523;23981;9079;88875;195869];
[62320;1;3;7;9;7;9;115;49;293;691;1729;4087;6353;963;12433;22135;96383;127745];
[62329;1;3;7;7;21;5;43;247;89;275;1219;311;5677;7161;13853;38613;84935;223563];
[62341;1;3;1;5;29;61;17;235;127;979;973;1463;371;5567;6949;34165;3075;169347];
[62353;1;3;3;15;25;51;43;73;7;123;1761;1461;5291;14271;19335;45379;123469;190439];
[62359;1;3;3;13;19;57;25;161;351;703;819;753;3101;9043;19179;22665;118533;45817];
[62382;1;3;5;15;3;33;15;63;251;87;611;1187;2639;6001;16135;27505;71077;34101];
[62389;1;1;5;3;31;5;13;239;119;803;1881;3479;1933;6421;21411;62923;76851;211029];
[62396;1;3;1;11;13;59;13;77;87;343;1733;3493;5937;15733;7763;12839;68639;70965];
[62425;1;1;1;3;5;19;73;109;197;1007;1369;623;3249;9263;12463;37105;40599;115323];
[62455;1;1;7;1;21;23;27;221;117;27;1811;837;7355;8083;12657;34137;102025;6511];
[62484;1;3;7;13;13;29;7;103;511;449;1443;775;3503;1057;8809;48583;27649;206219];
[62494;1;1;7;1;15;37;53;205;393;691;989;3493;7813;12371;18125;62569;57075;100625];
[62507;1;3;5;7;11;11;55;7;487;861;1589;1003;607;10031;22481;41905;67791;168167];
[62512;1;3;1;9;21;31;25;187;315;379;961;2721;3395;12321;21693;56977;73197;160023];
[62550;1;3;3;7;9;25;103;1;13;1021;1777;1015;2269;2131;191;2561;74755;27131];
[62577;1;1;3;13;21;29;97;153;499;207;719;585;8155;2873;22073;45933;92875;19205];
[62590;1;3;7;15;13;31;43;223;405;839;1241;2219;6911;9469;24477;63157;95503;128431];
[62599;1;3;5;15;5;11;79;129;235;171;289;1791;6061;9107;13859;55923;30197;111025];
[62617;1;1;7;11;13;23;51;139;219;467;1923;2847;1977;1503;1939;55579;65357;50047];
[62679;1;3;7;11;27;25;91;95;73;189;1537;273;725;1215;15255;18847;67419;162153];
[62702;1;3;3;11;3;63;49;131;219;285;819;2801;2645;2943;15055;15659;130641;82913];
[62745;1;1;3;7;17;19;37;59;391;1009;1569;2569;2519;33;18827;23277;94797;103673];
[62772;1;3;5;9;27;57;69;185;49;829;29;1247;6129;14935;8005;48343;55789;170099];
[62794;1;3;3;7;19;55;77;231;79;787;1597;2701;4999;4247;31849;7797;118993;77871];
[62835;1;1;7;13;5;45;105;137;239;923;593;3227;3603;15463;15533;55285;95295;141951];
[62842;1;3;1;5;29;3;113;241;255;181;1933;2579;1865;11083;8023;34271;78603;240781];
[62847;1;1;3;7;17;21;123;75;305;485;9;3037;677;8001;16803;25851;121773;77729];
[62857;1;3;1;5;23;7;39;25;381;1003;361;995;1751;9599;6399;9627;19303;249899];
[62894;1;3;5;5;13;39;65;145;351;135;981;3657;4711;13649;17253;46443;99187;176683];
[62911;1;3;1;9;9;41;79;237;445;507;1947;2905;8161;715;24499;62397;26393;197221];
[62928;1;3;5;3;23;9;107;121;59;265;177;3495;391;4537;32099;45217;128285;259285];
[62954;1;3;3;15;5;61;87;209;139;461;485;3261;7425;6193;22221;22145;93989;101459];
[62964;1;3;1;1;15;51;29;145;385;695;375;3743;1387;15385;7995;22993;64115;239897];
[62977;1;1;5;15;9;11;73;219;293;941;477;3935;2717;9559;20537;6935;39711;13623];
[62984;1;3;3;11;3;23;127;21;61;59;1685;507;3883;6587;6355;65407;54311;228555];
[63007;1;3;1;1;25;47;51;111;77;871;1045;4017;7683;7729;24155;3481;31749;245155];
[63017;1;3;5;1;25;29;119;131;475;763;1639;1937;7387;2307;24081;34797;91785;52055];
[63058;1;1;5;1;29;19;119;111;119;751;1079;1911;4085;8909;4351;30037;37691;57175];
[63067;1;1;7;7;27;33;71;189;105;821;1543;2939;3829;6485;22235;7097;76987;207121];
[63085;1;1;3;3;7;7;65;121;355;405;1019;1779;7301;10609;25927;16501;37287;133383];
[63150;1;1;3;11;31;57;109;197;165;711;271;653;5835;14905;26065;52287;106215;225075];
[63170;1;1;3;3;1;41;5;169;15;49;1311;2715;579;1693;28001;17935;18585;123531];
[63184;1;1;7;7;1;49;59;75;173;361;1947;2707;1835;12025;24051;24359;121841;215797];
[63210;1;1;5;13;7;49;15;181;409;1005;383;3449;2987;13051;7097;34571;55495;65251];
[63215;1;1;3;11;5;9;67;41;9;79;401;379;4107;5231;519;47877;17273;137479];
[63217;1;1;3;13;25;7;9;165;103;37;1369;933;1119;1025;19767;25765;55487;249709];
[63229;1;3;5;5;19;53;105;135;245;957;185;2901;1741;10429;747;23365;49363;84095];
[63237;1;1;1;15;29;17;107;193;17;447;1261;1935;5749;2303;23287;59883;28655;188055];
[63259;1;1;5;9;13;27;99;253;299;481;89;3041;1549;15417;30495;2063;53649;219883];
[63265;1;3;3;15;19;19;7;149;67;349;789;129;2783;2887;28631;26001;62407;151767];
[63271;1;3;3;13;7;29;65;25;93;627;301;721;7249;13295;19995;33715;36441;157625];
[63286;1;1;1;3;29;63;85;27;507;543;1887;3169;4239;4455;22047;15369;48913;192071];
[63298;1;3;7;5;9;33;125;41;7;723;1091;3311;8173;3861;31507;42669;68853;60043];
[63343;1;3;1;13;13;7;121;41;181;913;371;163;7061;8779;18345;41915;1785;107113];
[63355;1;1;1;9;13;41;23;35;157;247;1243;1101;5193;4027;29917;44099;46211;162059];
[63361;1;3;1;5;15;51;3;241;131;741;1885;2397;5673;9097;9319;15381;55655;207569];
[63362;1;1;3;15;25;15;69;55;435;727;1007;375;7871;10437;11011;36711;11269;105159];
[63379;1;3;3;13;17;1;101;189;295;185;1715;2609;6767;11751;11469;3951;80743;114439];
[63397;1;3;1;7;21;41;93;39;433;917;279;161;267;10201;26583;30363;110187;46501];
[63415;1;1;7;7;13;15;89;167;365;925;107;3537;6815;15251;23149;61821;66569;135353];
[63421;1;1;1;3;13;59;21;255;111;603;547;465;3001;16055;26389;64301;112751;219279];
[63463;1;1;1;15;17;3;21;49;327;349;489;957;807;11685;23975;34729;100773;223551];
[63491;1;3;5;15;19;59;63;71;233;767;1789;3609;5911;3405;7519;3611;92015;126669];
[63527;1;1;1;11;7;31;79;57;115;763;1643;3329;7209;1385;15565;64353;60637;59445];
[63545;1;1;3;1;13;3;47;89;507;523;1;1391;6973;7267;32527;52631;20775;234503];
[63553;1;3;1;9;23;23;95;57;295;857;213;1211;3503;3043;24843;16149;118719;171585];
[63560;1;3;1;5;1;13;63;167;305;711;759;2521;5051;9125;22917;24647;100777;261137];
[63563;1;1;5;9;25;19;5;225;511;543;685;733;7249;10447;11115;25927;104327;92861];
[63566;1;3;1;7;15;7;15;83;379;461;943;317;7735;12655;7549;6371;20901;170331];
[63589;1;1;1;13;7;17;41;51;47;15;477;1203;819;1615;13805;40147;3967;192647];
[63599;1;3;7;11;9;11;111;75;171;833;1503;2325;7279;2687;16499;11547;99409;186429];
[63601;1;1;5;3;13;21;75;17;447;647;1309;2297;7911;12093;16237;50831;96123;134479];
[63608;1;1;5;15;19;29;35;255;291;437;85;2143;3281;3629;29339;28169;46561;236595];
[63620;1;3;7;1;31;57;125;109;317;461;681;1379;6387;14971;8451;17655;87619;51721];
[63654;1;3;7;1;23;33;45;149;43;465;997;601;693;6273;12867;25885;81353;60437];
[63703;1;1;7;7;31;25;113;205;481;141;1757;587;2981;7637;3869;4151;69541;68587];
[63719;1;1;7;13;17;31;69;247;137;79;1221;1693;3747;10711;1671;31587;12139;248585];
[63758;1;1;1;3;1;61;39;139;37;79;125;1145;7505;10129;29209;52045;99159;195553];
[63769;1;1;5;3;13;41;13;11;167;953;1961;3557;871;1687;28479;10621;27533;243519];
[63782;1;1;7;7;1;35;107;227;375;225;483;1239;7591;8549;7351;62001;70245;102795];
[63803;1;1;1;9;29;35;15;3;337;1017;1065;2107;2457;9455;7069;55081;57887;149679];
[63811;1;1;7;1;1;1;13;63;287;895;593;1253;4717;10313;10275;22143;59149;38865];
[63851;1;1;3;15;27;39;73;11;509;391;1901;503;5523;6777;30849;41301;35067;68443];
[63854;1;3;3;15;17;57;39;229;273;917;577;3627;3285;4495;28581;34011;38537;194999];
[63872;1;1;7;3;17;51;91;203;161;757;581;1625;477;8839;16515;43101;121497;23603];
[63878;1;3;3;5;19;29;55;127;283;999;1227;1937;4471;11305;8813;40509;78521;175573];
[63895;1;3;3;3;5;29;33;249;25;213;1315;393;6967;12751;7485;39561;14801;191921];
[63917;1;3;7;9;23;15;93;69;23;239;1993;3375;539;14141;10123;33561;127565;181527];
[63930;1;3;3;15;13;15;65;241;83;351;1943;1305;7181;11803;31907;63623;5439;150661];
[63935;1;3;7;11;13;17;17;37;409;577;973;797;1761;5333;13803;22991;29743;53051];
[63955;1;3;5;5;27;25;91;225;411;23;877;2487;8061;12337;11471;8857;10791;112699];
[63964;1;1;5;3;15;1;87;249;205;1011;2045;1879;4137;5877;12709;5231;74283;124315];
[63967;1;1;7;7;31;37;117;71;139;391;1085;4033;3087;3063;19991;8787;96899;17279];
[63980;1;1;7;15;19;47;45;181;303;151;337;2557;6131;3161;13097;52777;77783;259817];
[63985;1;1;3;3;1;55;115;227;83;591;967;4067;3441;243;13443;4043;129365;161459];
[63992;1;1;3;15;5;23;71;31;271;585;931;909;3375;15063;12111;35811;124047;68225];
[64021;1;1;5;11;1;59;19;193;323;489;837;3709;1807;11617;30931;33561;2805;100979];
[64026;1;3;5;7;27;7;71;67;167;521;1237;2911;3531;2885;4669;25703;87647;36381];
[64044;1;3;3;13;13;21;97;225;477;1023;2029;877;3849;4675;17665;19257;9697;168577];
[64055;1;1;7;15;25;31;19;255;45;539;1831;2655;7471;12011;12455;3681;123881;234471];
[64056;1;1;3;9;17;39;105;73;271;555;987;873;5371;12381;13469;54961;125701;194063];
[64061;1;1;5;5;7;27;15;195;121;175;991;955;5007;11423;1539;21381;79891;162149];
[64067;1;3;1;7;25;23;69;69;177;545;481;3503;3721;1077;8763;6919;64743;172311];
[64081;1;1;3;15;31;5;33;45;81;795;435;399;4591;3741;26493;14791;59529;89989];
[64100;1;1;7;13;21;29;95;75;213;59;1635;479;441;14667;16389;9139;30955;169895];
[64109;1;3;3;3;17;61;103;85;233;287;447;2687;4755;9489;1669;10405;58489;170429];
[64112;1;1;5;5;13;9;63;129;321;531;393;3353;5309;16375;20473;12595;52239;183647];
[64118;1;1;3;7;7;31;101;253;119;325;351;2321;1899;14073;8985;13609;32043;33225];
[64124;1;1;3;13;7;25;73;191;399;591;819;2859;6053;815;30417;5709;18277;121991];
[64145;1;3;3;1;7;47;7;81;451;463;699;1857;8169;15649;22693;28673;9717;227583];
[64151;1;3;3;3;31;45;123;205;23;901;1003;1149;7481;6925;23845;18573;97047;248957];
[64203;1;1;3;3;21;9;53;241;125;583;1055;3981;8113;12477;8455;6289;112253;17321];
[64208;1;1;7;3;19;5;51;111;443;283;117;2127;4273;2335;20373;2885;57439;56839];
[64236;1;1;5;15;7;5;65;163;27;691;1667;69;2459;7477;21349;52417;42299;75965];
[64254;1;1;1;13;13;19;87;223;475;205;1113;887;2213;5533;15875;36173;53933;200173];
[64261;1;3;3;13;23;17;93;37;391;127;873;1445;3007;10863;21245;55025;99275;255329];
[64280;1;3;1;15;1;47;57;5;207;825;161;539;6151;12829;14121;51217;25547;234303];
[64296;1;1;5;1;21;63;15;83;19;817;591;3131;889;12451;14363;27295;83877;124701];
[64313;1;1;7;7;11;21;87;85;13;555;163;9;5973;14749;19585;57287;43421;66301];
[64314;1;3;5;5;7;33;19;7;9;819;533;2105;4275;10611;30517;35863;84687;245157];
[64316;1;3;5;13;3;55;111;157;235;405;39;2191;905;3099;245;37371;365;257385];
[64348;1;3;3;13;29;39;125;235;213;879;497;1659;6689;12165;18621;14657;37079;167867];
[64352;1;1;5;15;5;5;27;197;77;477;1115;3369;2253;5757;20855;4473;112501;76881];
[64355;1;3;3;13;13;61;37;97;229;743;1381;3979;307;319;16765;56295;109303;21361];
[64361;1;1;7;11;19;7;63;145;129;899;93;1851;7901;8767;15553;13913;4897;129483];
[64388;1;3;5;11;7;23;19;5;465;365;883;3563;4395;2759;4273;623;75047;249519];
[64398;1;3;1;5;29;43;75;7;509;373;359;2041;5957;1251;32431;37803;120915;45137];
[64403;1;3;1;5;21;9;43;1;337;743;1359;1629;5117;2499;16129;22831;38795;32137];
[64419;1;3;3;7;23;57;9;31;351;559;1729;1461;3037;12685;8899;14859;108851;170195];
[64421;1;1;1;15;23;57;39;23;283;487;1055;1265;6781;7955;195;37745;66115;56413];
[64428;1;1;3;7;27;35;57;17;137;17;905;4033;5775;5305;22975;17547;106297;146287];
[64453;1;1;1;3;5;39;73;151;469;523;119;539;2817;7783;22957;59937;21331;172437];
[64463;1;1;3;13;21;1;23;109;113;257;817;1671;6729;1571;15009;48539;94025;160379];
[64475;1;1;1;1;31;23;83;107;225;715;949;69;2163;4777;7715;25901;82935;81455];
[64511;1;3;5;13;29;11;61;169;241;973;315;3991;1389;3293;31123;59419;7359;170929];
[64537;1;1;7;3;21;15;111;41;329;513;1175;4037;2747;11465;17253;54055;29409;230925];
[64576;1;3;5;15;31;17;105;45;61;339;1387;1021;4499;13671;25521;52081;49153;31587];
[64579;1;3;3;3;29;17;51;103;429;849;1759;1267;6255;4631;32643;44977;40875;239457];
[64581;1;1;7;15;3;11;123;157;73;151;777;3855;1913;969;11821;16889;63503;197305];
[64606;1;3;1;5;13;49;61;209;105;523;851;3667;7525;5537;12851;42867;50535;131403];
[64615;1;3;1;7;13;19;107;71;479;895;405;89;1345;5543;12709;6093;97581;20483];
[64649;1;3;3;11;3;47;117;175;175;321;1257;365;1193;12813;2713;26941;43605;223323];
[64655;1;1;7;1;19;35;45;143;395;255;1599;575;2637;1287;27673;48329;57975;44173];
[64664;1;3;5;1;1;19;107;233;465;661;91;4007;6409;3399;8175;54171;111417;124955];
[64667;1;1;5;13;9;27;121;225;55;761;779;3015;6333;10779;26531;57103;33463;90219];
[64712;1;3;1;9;17;3;85;147;111;133;869;1833;2401;5811;24415;27095;65529;164121];
[64715;1;1;5;13;11;37;13;83;391;909;2013;1327;6697;1711;29265;10607;20127;57873];
[64718;1;3;1;11;17;17;33;101;383;837;1769;1711;3735;14777;27101;56853;110643;101917];
[64741;1;3;5;13;25;7;37;99;473;211;1469;1827;6307;8835;15853;22027;43095;15817];
[64766;1;3;1;5;19;13;61;193;57;359;1277;749;5499;11239;20681;48477;7225;259259];
[64780;1;1;1;7;27;17;79;213;307;761;429;1519;7483;6007;11251;13263;24851;7919];
[64788;1;1;3;5;9;37;101;149;405;413;1213;157;3811;4485;13099;32697;75677;127815];
[64791;1;3;3;7;29;29;13;113;45;885;1471;3433;2289;4375;815;16741;20933;9763];
[64795;1;3;5;15;5;3;7;37;347;41;1977;395;6363;3591;21457;31455;60547;108153];
[64798;1;3;5;7;19;9;113;1;241;439;731;1591;3347;1295;6635;25267;13239;214669];
[64816;1;1;3;5;7;7;69;77;281;851;1533;1;7351;3429;29237;54597;11171;66613];
[64819;1;1;7;15;29;7;59;9;105;129;1397;3841;3945;4755;19877;11109;17497;225473];
[64822;1;3;7;7;15;61;3;207;97;229;1251;101;3157;5729;15579;14849;119119;91891];
[64833;1;3;3;9;27;15;85;221;231;577;1787;3489;2393;7593;13175;25561;108505;97267];
[64836;1;3;7;13;23;3;7;85;307;899;371;3539;3467;7955;9539;53583;125587;30969];
[64876;1;1;5;7;7;31;115;245;375;803;1121;3775;3565;15283;25981;24681;34469;172003];
[64891;1;1;5;1;31;5;5;161;153;235;1703;2163;1089;16233;6183;25167;102925;36673];
[64907;1;3;3;5;1;57;59;5;87;497;151;1731;2727;4583;28165;63053;76003;29259];
[64943;1;1;5;7;5;21;79;111;347;879;827;3947;4421;9589;23971;11681;104555;226535];
[64965;1;1;5;1;17;35;105;159;391;495;1709;3731;261;2359;1413;37105;8979;189381];
[64977;1;3;3;1;11;23;21;213;261;755;1503;2369;1765;14531;2605;15609;48691;113059];
[64999;1;3;5;1;1;55;87;197;89;391;1157;3523;385;5871;13681;29097;101903;184553];
[65034;1;3;7;5;17;51;87;191;495;761;1943;1845;2963;13133;22439;20101;96759;215215];
[65036;1;3;5;11;23;9;53;41;229;233;2025;2835;2359;4755;3015;48267;20721;61001];
[65089;1;1;7;9;27;35;45;201;137;291;151;733;6199;3127;3073;14491;95051;12469];
[65107;1;1;1;9;7;49;73;233;239;881;1991;695;5947;9377;12027;41137;80217;122961];
[65110;1;1;5;11;3;15;85;203;305;945;1007;1831;3999;373;21141;63829;91779;122495];
[65120;1;1;1;11;23;51;127;215;441;467;229;3071;2731;8813;30155;60289;54531;196187];
[65132;1;3;5;15;29;31;11;129;443;649;773;3035;7915;13831;31979;5577;42869;153591];
[65143;1;1;3;11;21;37;23;79;153;7;1801;441;8189;7235;6311;965;71993;81755];
[65150;1;3;5;5;23;13;93;39;247;367;811;1381;6809;16219;8755;41923;79873;105781];
[65177;1;3;5;9;19;43;21;229;251;187;1047;2295;5529;2965;1507;16185;121183;30551];
[65201;1;3;7;9;19;11;33;213;39;811;231;1527;6093;1507;3541;37585;78785;215419];
[65214;1;3;7;7;11;13;109;119;175;311;719;3127;6351;1909;5441;5411;58751;80875];
[65234;1;1;1;7;17;35;57;139;289;137;1919;2131;6145;3953;24887;64737;4677;23833];
[65240;1;1;3;13;1;21;83;243;27;69;501;3925;3339;13313;27021;38319;76441;146397];
[65243;1;3;7;9;15;17;97;117;505;673;1333;3891;7775;6323;12967;17387;19501;68347];
[65259;1;1;1;5;27;55;43;47;399;147;1539;2663;5555;11993;8759;33783;8361;78633];
[65276;1;1;1;15;1;17;21;85;129;117;339;1319;1119;6869;12913;56873;30795;76849];
[65287;1;1;5;5;11;1;11;175;355;737;1367;3089;5993;4377;10325;3817;61735;187689];
[65306;1;3;5;5;21;41;85;219;425;611;1219;1849;349;925;26185;31591;23855;35549];
[65311;1;1;3;5;21;3;77;25;265;949;1979;1561;4243;12437;5215;23445;33295;130385];
[65321;1;1;3;1;13;7;3;81;143;735;31;1781;1537;10789;11923;61589;75761;178837];
[65350;1;1;7;7;11;47;55;37;39;533;1773;3121;183;7193;19403;45757;20457;158437];
[65364;1;1;5;5;3;15;53;41;139;529;601;2967;4683;3869;13449;30155;85833;190053];
[65451;1;1;5;1;11;39;85;131;349;175;267;779;923;5905;32727;22055;63087;247607];
[65488;1;3;5;7;7;59;11;49;465;617;557;251;1303;10369;29207;13457;113591;43717];
[65510;1;3;5;3;27;39;21;157;39;891;1833;2887;7395;7965;21771;42675;71705;177323];
[65528;1;3;7;7;21;51;53;83;433;889;1033;1701;6285;14335;1683;3637;110241;110355];
[65533;1;1;7;7;11;23;35;63;71;867;79;2551;1837;773;21093;60433;67305;70731];
[65553;1;3;5;11;9;25;67;23;137;75;707;2229;6237;9871;29063;30433;112897;68037];
[65563;1;3;7;13;1;45;119;149;487;667;1177;2927;1875;11963;20771;1177;2331;244039];
[65579;1;3;3;7;19;61;89;163;91;409;1109;1947;1017;12385;13487;45645;64175;184221];
[65621;1;1;1;15;13;47;21;203;341;845;443;1891;2591;2721;7515;52161;70359;173139];
[65625;1;3;3;11;5;3;119;179;509;33;1909;2531;6713;12447;30157;61019;45857;165557];
[65635;1;3;7;5;3;47;79;55;321;71;1917;4053;6603;3079;28133;15611;99161;118279];
[65644;1;1;1;7;19;13;3;31;213;705;435;2381;991;4719;24473;8907;122013;228081];
[65690;1;1;7;11;27;15;5;123;169;197;361;3803;2001;14547;22967;27575;118325;130651];
[65696;1;3;3;5;29;43;77;15;463;753;695;3489;2023;9913;13029;26621;129393;209439];
[65705;1;1;5;15;1;39;55;129;247;729;1537;2529;3981;13153;1505;12743;104173;218423];
[65716;1;3;7;3;21;3;49;173;445;821;3;2671;1865;1377;7589;65485;96485;80193];
[65725;1;3;3;11;7;21;99;143;333;869;1469;1579;1749;2203;18773;47377;103211;238357];
[65733;1;3;5;11;11;19;25;253;229;755;101;269;6703;5603;23201;57163;28431;159653];
[65740;1;3;5;3;3;15;45;225;325;997;1061;883;3885;7633;461;44411;52129;84535];
[65758;1;1;7;1;27;29;51;23;473;443;117;3021;55;7413;7911;3063;47533;234941];
[65786;1;3;3;15;19;43;37;95;249;805;603;865;2115;6999;9739;59029;12181;211159];
[65806;1;3;7;3;3;61;105;113;11;169;1007;689;2553;14561;17473;38249;41225;80021];
[65834;1;3;7;11;5;47;69;49;457;931;435;1423;411;15163;3171;29143;101153;240869];
[65844;1;3;7;1;17;1;13;45;155;551;1783;3583;2767;2761;18019;61635;104527;123817];
[65866;1;1;5;11;9;43;101;205;233;689;1247;2903;3117;12261;11827;50403;103727;35533];
[65895;1;1;5;13;23;37;121;195;133;265;1517;823;5933;13917;6363;8533;58443;178549];
[65902;1;1;7;9;29;1;3;195;221;877;71;473;1173;15285;6057;60005;92401;65357];
[65953;1;3;7;1;5;25;15;207;455;447;1125;3731;1289;867;22111;38893;70779;88277];
[65954;1;1;1;13;31;19;15;179;183;351;1197;1929;3569;12251;17641;4097;24141;186857];
[65983;1;1;1;9;19;9;125;23;431;225;943;479;2615;443;30977;10889;17107;116819];
[65985;1;3;1;9;9;13;85;123;85;857;125;3149;1105;3687;2313;38749;52131;259511];
[66003;1;3;5;7;27;33;57;105;511;871;1089;2311;3291;2245;3365;30211;62549;56207];
[66010;1;1;7;11;1;19;75;37;139;173;391;317;2575;11887;4289;32275;43487;487];
[66025;1;1;7;1;11;3;9;217;343;35;59;93;1343;5043;14869;63717;40983;235373];
[66050;1;1;3;5;15;13;93;247;417;179;307;3299;4383;5491;21271;37155;32289;75737];
[66074;1;3;3;9;3;39;63;243;305;729;9;3317;3301;13165;20437;36505;32977;2761];
[66076;1;3;7;5;3;37;61;109;351;641;1699;2517;2637;4995;27365;56971;53609;14373];
[66097;1;3;1;15;31;53;127;123;219;1003;1425;1201;5303;10369;21481;26987;42541;37855];
[66132;1;3;3;13;9;29;35;111;395;791;1619;2647;713;15955;19145;33883;65215;166267];
[66158;1;1;7;11;17;5;45;249;421;273;411;2885;7027;11933;24847;36969;124701;214931];
[66175;1;1;3;1;27;41;125;83;327;643;223;151;6709;15949;125;13275;90405;15759];
[66185;1;1;5;15;19;45;55;109;497;1011;1363;1937;3697;7475;10533;65325;29681;76275];
[66199;1;1;1;3;23;17;59;209;229;151;1199;279;191;8993;25939;13885;113477;166961];
[66206;1;3;5;1;19;61;27;129;103;721;1451;2803;5879;3523;15443;4047;95927;50339];
[66222;1;1;1;11;27;9;53;47;331;185;1337;3429;807;3341;14871;11035;50651;243843];
[66227;1;3;5;11;7;57;125;15;271;811;1873;3093;7841;5761;19955;571;123319;149465];
[66241;1;3;1;3;31;61;71;47;477;273;167;1069;3513;1463;2667;22097;60367;246045];
[66272;1;1;1;11;1;55;35;233;37;659;1517;411;2981;10339;21857;33701;44393;6861];
[66324;1;1;5;7;11;43;109;205;103;315;1925;2109;6307;7915;19793;61167;27963;251913];
[66424;1;1;5;11;5;63;107;219;53;251;1053;2035;77;15885;22011;3945;91;204899];
[66460;1;3;7;13;21;45;51;53;99;831;1421;3171;4241;14105;26161;45071;2813;54339];
[66464;1;3;5;1;3;61;43;141;355;699;11;2203;8055;14815;24597;65201;32689;70167];
[66481;1;3;1;5;11;27;109;239;199;23;375;1477;3197;4401;29901;46623;79593;133143];
[66482;1;1;1;3;23;9;63;103;41;177;1365;1971;5937;13055;27713;13535;47371;57841];
[66523;1;1;5;5;19;15;5;21;307;65;215;3801;4149;6565;10249;63541;30867;12129];
[66526;1;3;3;9;11;1;107;99;235;331;1479;1365;2557;9545;25767;12461;6471;184643];
[66532;1;3;3;5;17;13;103;223;95;955;1479;1825;705;5311;28531;22787;118899;181829];
[66539;1;3;7;1;5;59;65;11;251;419;659;2559;5445;4221;5871;51845;33925;167037];
[66541;1;3;5;13;15;45;35;181;325;293;1897;3321;6081;9919;27641;9407;35263;231009];
[66573;1;3;3;3;3;35;85;33;293;777;1945;3771;6967;12353;2737;12501;127359;163591];
[66582;1;3;7;9;13;7;119;107;309;811;1113;2465;4867;4295;565;59159;94587;119761];
[66591;1;3;3;1;1;31;61;49;461;635;233;175;6237;10463;17847;54925;115675;260575];
[66615;1;3;5;15;25;17;61;155;235;483;1771;2903;3163;2525;17153;54701;49521;11911];
[66622;1;3;3;5;1;35;51;23;187;107;177;1381;165;6149;10841;3619;107811;188811];
[66629;1;1;5;9;7;35;5;233;43;913;939;2195;1369;5355;7941;26075;66813;227623];
[66641;1;3;7;11;5;43;97;211;427;875;1179;3631;7989;2419;17209;15789;128209;224117];
[66712;1;1;1;7;17;7;109;255;111;883;371;3481;6031;14665;5905;28735;113003;327];
[66724;1;3;5;3;5;61;7;155;87;861;39;3163;179;15493;16403;18755;116157;233185];
[66731;1;3;5;5;23;45;67;205;395;417;1235;669;5097;6823;31483;61395;36073;24183];
[66745;1;1;3;1;11;35;123;171;125;759;197;907;2273;3623;31861;60071;91857;158011];
[66759;1;3;7;11;19;19;25;25;167;429;1565;3179;5453;15731;30727;32111;63685;113309];
[66808;1;3;7;9;15;33;67;225;495;19;1881;1357;4311;9547;18717;20749;8819;209979];
[66814;1;3;5;3;13;47;107;153;461;815;1521;2361;7721;10631;2799;62321;59755;170803];
[66821;1;3;7;5;25;61;5;235;71;349;1555;3419;1159;2027;17391;29849;47145;122057];
[66831;1;1;5;11;19;19;101;45;333;553;1431;4077;2629;15997;19793;65521;124287;174675];
[66834;1;3;7;11;25;39;103;219;375;27;227;1061;445;14803;18883;49191;33303;114467];
[66879;1;1;5;7;3;13;117;29;387;891;371;2199;7023;13671;26291;61563;2733;16093];
[66884;1;3;5;11;29;5;17;249;149;777;1817;319;19;12321;15241;29069;58381;157467];
[66899;1;3;7;9;29;17;81;141;201;383;429;3675;69;8155;22821;60707;127015;248279];
[66901;1;3;7;9;25;5;11;27;423;987;99;3599;4849;4513;32119;34301;6327;249457];
[66924;1;3;3;7;13;25;71;227;307;985;665;3097;6713;3823;6357;58199;84057;28055];
[66929;1;3;5;7;19;21;93;45;159;527;493;59;1111;1415;1949;28525;50343;11039];
[66942;1;3;5;13;17;35;79;229;449;533;235;3445;8153;15473;12975;53909;24589;237049];
[66985;1;1;7;5;3;53;93;33;339;423;497;2691;6125;3931;25357;27509;92509;227209];
[66986;1;1;7;3;13;49;111;179;449;279;827;1481;2477;6867;18079;6261;30885;205675];
[66994;1;3;7;7;11;9;13;105;367;639;1307;1617;4759;8387;8909;13715;56599;113259];
[67066;1;1;3;3;15;17;103;125;205;67;999;3965;907;13235;15275;58457;66889;227279];
[67075;1;3;3;3;11;35;99;81;421;75;1757;2413;5655;1227;4019;14503;20719;224807];
[67099;1;1;7;11;17;17;109;203;331;813;987;2925;1601;13617;29;8235;95129;117987];
[67130;1;3;7;5;5;33;105;191;183;899;1949;2923;2473;3435;8097;35615;10109;62563];
[67173;1;1;7;13;5;25;21;159;487;415;1507;2161;649;14425;2605;8357;92441;87323];
[67183;1;3;7;15;3;23;87;209;407;765;975;3859;675;6351;18703;44919;57155;134961];
[67186;1;3;5;15;7;59;77;37;235;565;1707;3531;6733;2223;12621;59523;83547;172355];
[67197;1;3;7;5;23;15;57;217;151;333;1033;2549;303;1455;5329;20187;55415;166093];
[67201;1;3;1;13;21;27;1;85;335;201;135;2603;291;10573;28411;1059;129871;98303];
[67208;1;1;3;5;23;61;123;169;503;629;711;2795;2291;13273;32703;63377;72809;214927];
[67221;1;3;5;13;31;11;115;133;443;709;263;3739;2777;11545;19137;61285;64065;214477];
[67238;1;3;1;11;29;25;3;5;385;613;1277;1445;1643;15137;28041;47713;122051;62915];
[67252;1;3;5;11;3;11;1;137;457;577;783;1745;5;5817;26569;50751;14075;246219];
[67256;1;1;1;9;7;9;105;27;167;939;799;2773;6427;15579;1975;10695;111429;227105];
[67270;1;3;1;11;23;23;73;103;103;61;1743;3061;8127;15893;21223;43549;103659;89129];
[67288;1;1;7;13;5;43;59;235;139;961;839;3843;1317;4903;21043;15479;115065;112531];
[67318;1;3;1;3;19;15;57;145;193;321;1919;385;125;15517;14243;62845;38995;120045];
[67329;1;3;3;7;17;61;77;75;267;203;1911;2599;1797;761;28101;58603;107755;158689];
[67349;1;1;5;11;15;21;71;227;377;361;2013;129;6271;1421;6009;52261;113389;74915];
[67369;1;1;5;7;3;39;27;49;97;885;651;1633;3445;3415;20167;26667;52997;221391];
[67392;1;1;7;9;7;59;95;127;479;871;845;2951;673;6385;10057;2605;78529;230771];
[67435;1;3;5;7;31;15;53;125;223;711;875;429;7237;4005;2153;26865;63205;144125];
[67473;1;1;7;9;1;57;19;189;67;423;1937;37;4925;15503;25969;20419;59921;58119];
[67496;1;1;7;7;31;51;99;189;21;1011;1551;3529;7617;15805;11365;43123;84785;203703];
[67507;1;1;3;15;3;63;9;67;399;151;253;1839;1365;16295;13145;29211;48681;177643];
[67514;1;1;1;5;13;37;1;21;435;483;939;535;1505;10879;7027;5599;63261;158573];
[67536;1;1;7;15;13;39;113;209;213;1017;1197;285;4221;6831;13383;2265;34313;160879];
[67555;1;3;7;15;25;23;95;217;141;681;451;1275;4957;10197;21375;50905;11087;96135];
[67598;1;3;1;11;17;35;87;15;57;777;1429;615;681;8437;23981;51781;112169;198471];
[67615;1;3;1;5;21;37;113;105;123;327;549;1641;7697;2127;5709;8351;56787;260157];
[67625;1;3;7;15;19;17;51;15;367;89;1635;353;4855;1551;7197;27403;11259;176029];
[67645;1;3;1;1;27;9;3;35;213;31;885;797;7077;15641;22509;35193;112411;157335];
[67651;1;1;5;1;5;9;101;149;169;581;1927;197;5935;6361;3915;15541;69575;102451];
[67663;1;3;3;13;23;63;45;205;271;17;707;937;2547;12019;8559;26163;58117;138625];
[67672;1;1;3;1;19;63;125;175;253;629;1121;3701;7755;61;13037;39417;6179;261923];
[67682;1;1;5;1;25;63;27;245;371;657;157;3821;3279;8977;9065;35611;27325;205737];
[67699;1;3;7;15;7;57;19;191;1;927;1379;2579;4335;7163;4877;51435;17309;100173];
[67718;1;1;1;5;21;59;107;195;317;691;541;69;7235;2175;25191;23913;126369;9263];
[67780;1;3;5;15;17;7;67;27;263;855;1065;973;6705;10729;8719;32741;59207;249107];
[67795;1;3;1;1;21;23;115;119;351;207;1691;1105;7479;3877;24439;29017;34171;133797];
[67804;1;3;3;3;11;23;39;165;99;1023;309;3933;4235;3891;27237;30887;34363;175017];
[67818;1;3;1;5;17;33;79;105;253;515;823;1783;1523;2095;10355;8929;51001;112815];
[67832;1;3;7;15;11;27;123;161;279;541;1343;1009;6015;8565;27031;233;2153;179243];
[67941;1;1;7;7;1;53;1;33;75;57;723;3855;3301;14941;6637;25181;103441;208339];
[67984;1;3;7;13;3;23;11;75;55;19;1181;3451;4901;2621;18323;42395;95701;237753];
[68044;1;1;1;5;1;1;123;203;367;71;1897;295;6719;2647;7135;34511;79853;58351];
[68059;1;3;3;7;7;63;87;91;223;265;927;3843;1703;11633;8077;26425;46573;181201];
[68062;1;3;3;3;1;51;3;99;37;251;1739;2813;3955;8745;4425;42419;124177;173997];
[68065;1;3;5;15;9;19;11;207;123;287;1703;2155;2729;4541;4925;4735;77159;97911];
[68071;1;3;3;15;23;31;35;33;507;315;1071;3001;7569;11749;3183;6989;68637;177803];
[68072;1;3;5;1;31;1;113;39;295;263;1113;619;5523;15385;24115;24233;91943;129299];
[68085;1;1;5;11;9;57;89;49;67;601;1277;2275;6349;4141;28397;47061;28143;126291];
[68090;1;3;7;15;11;63;123;187;305;1009;1509;2569;2235;8233;27351;53437;34353;105799];
[68101;1;1;3;1;13;9;11;169;427;171;1031;633;4275;1173;11233;57997;107753;257337];
[68102;1;3;5;5;3;39;49;233;309;999;1275;85;1663;16275;9145;18439;59055;249657];
[68106;1;1;3;7;11;55;73;75;115;397;945;3657;6847;7341;21305;30119;65675;169281];
[68164;1;1;7;7;3;5;31;179;183;479;329;217;1077;6893;23425;21903;34293;184819];
[68191;1;1;3;3;7;63;97;255;289;917;1881;3829;2433;3473;11045;37739;73349;171899];
[68192;1;3;5;5;27;23;61;151;353;667;1889;2323;3261;15999;24225;35265;97301;75743];
[68195;1;3;7;1;19;41;81;61;461;275;131;2665;5615;1719;21047;42025;97725;196587];
[68209;1;1;7;11;3;5;47;107;397;237;1795;3049;5317;14147;15299;50469;83855;75685];
[68245;1;1;7;7;19;31;39;153;225;591;1547;3755;3219;15823;4015;30977;63999;198023];
[68246;1;3;1;1;17;57;91;3;425;465;735;719;2955;3003;6669;14335;32137;82265];
[68274;1;3;1;9;13;25;93;187;119;735;447;3387;5111;6525;28241;37643;99023;58551];
[68293;1;1;7;1;23;15;105;89;109;743;2007;3131;4839;3285;14681;47097;69531;104647];
[68294;1;1;5;7;27;33;85;109;165;569;511;3223;2201;2869;30457;42585;125187;83115];
[68322;1;1;7;13;1;39;55;69;279;757;425;1317;2403;10711;3341;33491;5607;214161];
[68353;1;3;3;9;23;57;109;9;473;323;1371;657;5039;1947;12787;29099;81887;44039];
[68359;1;3;1;9;21;49;39;71;493;611;1465;3965;7509;5315;4095;21865;123533;148467];
[68377;1;1;7;5;15;45;67;109;143;423;205;849;1291;245;26275;62873;69177;173705];
[68401;1;3;7;13;3;13;103;45;171;919;903;2171;5025;14855;895;36937;37643;30311];
[68422;1;3;1;5;31;35;67;111;201;183;375;905;5705;8839;31551;22525;53013;34189];
[68434;1;1;3;7;25;11;85;231;285;957;1731;1267;8179;14195;18405;8489;32503;86257];
[68443;1;3;7;5;29;7;73;15;501;909;1325;793;4479;12137;30871;36243;109781;7235];
[68445;1;1;3;15;13;13;75;221;497;921;1939;2791;5277;6257;11129;109;27549;44901];
[68476;1;1;7;3;21;9;35;113;101;15;545;2429;5869;11379;14427;28605;108313;220523];
[68492;1;3;5;5;21;31;79;101;11;687;609;3741;1259;1529;10185;49863;86529;5147];
[68504;1;3;1;5;5;49;105;213;435;201;511;525;5219;9503;32023;25407;2493;51165];
[68525;1;1;5;9;9;61;67;107;351;519;1373;1261;1069;4325;9579;37117;71759;17601];
[68540;1;1;7;7;27;63;63;229;239;291;1813;3831;8091;2553;18445;60707;88855;224325];
[68543;1;1;5;7;15;23;109;7;409;447;185;3535;4643;13431;11107;48771;95843;155889];
[68555;1;3;3;11;9;47;13;31;83;837;1661;2283;299;13161;25305;6079;107237;58477];
[68563;1;3;7;15;3;31;21;245;105;141;703;71;1887;9345;15719;37737;58431;195997];
[68576;1;1;1;13;25;21;23;67;349;581;1585;809;3955;4621;25989;25633;107229;193271];
[68581;1;1;5;3;15;57;111;147;243;575;851;3461;5171;4203;21855;59579;90509;16897];
[68617;1;1;5;13;5;45;83;59;253;261;1277;3179;6397;4277;6629;10979;55759;3033];
[68631;1;1;1;9;25;1;127;159;273;357;1343;3209;649;6631;1365;40813;98955;181679];
[68656;1;3;1;11;1;9;67;5;41;661;863;3769;2737;7261;26829;43093;113025;127975];
[68666;1;1;3;3;7;5;77;207;125;625;437;1059;2635;1099;25567;63759;97575;231313];
[68714;1;3;7;5;21;41;11;177;489;405;1831;1373;6267;11275;23613;55565;120353;98771];
[68743;1;1;3;11;15;55;103;185;493;755;1235;3143;4355;4887;11245;60103;4023;184729];
[68761;1;3;1;1;23;5;103;117;269;101;2013;1781;6445;8753;15041;13993;28753;47133];
[68764;1;3;7;5;9;23;1;203;19;535;1445;1713;5503;11555;6195;35797;55663;10187];
[68767;1;3;5;1;15;3;125;225;447;269;1663;1823;4309;12243;16689;3889;41111;123355];
[68768;1;1;1;5;21;33;83;147;243;101;1085;121;4939;6081;22621;52995;103047;82531];
[68786;1;3;5;3;21;3;5;81;431;191;1973;3675;6691;8687;31619;51669;95541;110447];
[68788;1;1;1;15;1;11;83;145;75;133;967;2837;5111;6099;9119;53661;128647;40557];
[68848;1;1;1;7;3;57;101;231;255;117;1903;2133;3867;11299;647;58853;22153;135959];
[68851;1;3;5;5;9;19;89;229;313;421;201;953;2487;6283;1305;33421;20933;164841];
[68914;1;1;3;3;1;45;93;165;343;577;1329;3019;2727;14397;7123;63347;45525;35133];
[68946;1;3;5;5;19;1;33;55;49;1003;1567;2539;7461;14641;7655;37499;65525;84961];
[68952;1;3;5;5;29;3;77;39;251;791;215;3779;1589;3577;22299;24133;105449;257157];
[68973;1;3;1;5;7;23;109;209;35;571;1047;3453;3657;11713;19379;57101;29943;60909];
[69001;1;1;7;11;17;63;15;175;333;831;1447;1991;3339;2519;30127;51481;71935;144995];
[69016;1;3;1;11;13;51;17;67;43;209;789;1285;5655;5841;10203;32053;15721;211725];
[69035;1;1;5;7;31;49;69;255;325;819;1769;1961;7403;1241;2241;40425;14839;178969];
[69037;1;1;3;9;1;5;9;35;167;865;337;1079;6195;10139;19215;57607;122437;197147];
[69049;1;1;1;15;23;7;47;155;345;547;333;3747;961;1397;17067;33385;48253;138611];
[69052;1;1;7;9;29;27;81;183;153;171;1125;1929;1047;12463;1543;42981;126163;203259];
[69058;1;1;5;3;1;41;123;213;7;179;1;3527;1437;3545;2025;5325;27097;187823];
[69063;1;1;7;1;19;5;111;251;431;91;1437;1155;335;9587;18287;23937;123331;3939];
[69075;1;1;1;9;13;59;75;219;225;313;525;2003;7829;7063;22123;4263;95491;9375];
[69112;1;3;1;1;27;29;71;189;169;301;165;2967;5147;7127;2191;34259;66605;149603];
[69117;1;3;5;13;29;57;105;31;495;311;1161;2109;1471;1275;12761;58379;46365;229935];
[69124;1;1;7;3;7;49;125;189;309;399;1361;3969;2177;8171;26623;41855;2809;5825];
[69127;1;3;5;7;17;21;77;101;37;661;1743;2243;823;12431;26931;7163;108093;191305];
[69134;1;1;7;5;27;55;109;119;13;727;421;3469;1137;6125;5107;52733;102891;147425];
[69139;1;1;3;5;17;45;17;211;137;21;689;1487;233;9845;6499;52617;73081;198137];
[69161;1;3;7;1;25;27;67;7;161;633;729;807;7371;7301;29499;45939;110565;219491];
[69196;1;3;3;13;17;7;55;211;103;981;1809;1913;5705;14011;7405;13893;92053;17997];
[69224;1;1;1;1;15;9;75;37;5;443;157;2749;5587;16087;14953;26793;21229;226879];
[69238;1;3;3;3;9;13;113;7;255;647;235;1713;525;8579;20873;49565;43869;145823];
[69301;1;1;5;15;9;1;119;189;73;321;1045;467;1565;14381;22683;7939;44337;231901];
[69316;1;1;3;13;21;61;35;105;425;395;381;1205;3631;8099;23723;29435;94683;180367];
[69325;1;3;3;13;19;15;59;111;355;165;857;3131;5037;2527;17533;53563;621;89837];
[69334;1;3;3;11;11;41;3;75;179;325;897;3141;75;1735;493;1123;126763;68645];
[69347;1;3;5;7;19;61;9;99;101;583;1967;621;1869;10693;2025;62797;85727;212309];
[69359;1;3;1;13;23;47;15;29;199;889;423;3995;1655;10753;25301;55551;94829;205833];
[69381;1;1;1;1;21;1;91;237;195;721;881;1155;4109;10367;1873;6851;13295;182363];
[69388;1;1;5;15;19;35;37;197;137;255;93;681;949;15183;24785;39357;65547;149013];
[69393;1;3;3;3;27;27;95;239;171;513;655;1629;4577;3005;1681;2581;59995;83981];
[69409;1;3;3;7;29;33;111;85;437;297;1563;2411;6171;2043;17625;59093;995;211599];
[69422;1;3;1;13;19;35;33;9;57;153;819;2017;5879;13559;23135;25981;41091;50975];
[69453;1;3;5;11;23;53;11;123;119;57;1775;3457;7939;4999;10771;23571;30099;17361];
[69459;1;1;7;11;27;13;7;215;7;1009;1967;1845;6679;13781;21797;18755;47131;245907];
[69481;1;1;1;3;19;47;35;13;287;349;439;3125;2387;12483;3833;29399;27037;30235];
[69487;1;3;1;15;17;41;15;21;499;87;1899;2835;1919;925;4525;12935;25021;106657];
[69490;1;1;1;13;17;59;73;75;443;199;1871;3447;4517;8395;16661;30655;17871;231337];
[69495;1;1;7;1;1;53;17;49;259;77;917;631;6061;12291;17715;49761;70699;68313];
[69501;1;1;3;9;13;27;67;149;229;347;1397;3457;6047;13117;11;18121;70323;36441];
[69511;1;3;5;7;27;13;69;177;451;87;647;3797;5433;3137;20213;9809;126877;55243];
[69512;1;3;7;13;21;57;73;157;173;631;1527;337;5605;8041;2181;19567;19829;63353];
[69532;1;3;3;7;11;5;111;161;247;553;435;3883;5639;10889;8953;58297;15197;99711];
[69542;1;1;7;13;11;29;71;251;387;1003;1275;763;67;10597;5995;53677;4683;2157];
[69560;1;1;3;9;23;27;93;209;325;517;297;3215;4359;395;10377;36967;69803;190037];
[69565;1;1;1;3;27;61;21;229;469;3;387;523;4753;2267;9879;32113;60837;76205];
[69571;1;3;1;7;31;31;67;15;161;699;713;2973;2007;693;21823;57549;28989;157879];
[69611;1;3;1;1;3;63;111;61;311;685;1029;345;6763;16217;14505;9777;3513;160985];
[69633;1;1;1;11;5;25;13;79;337;3;1997;3489;7621;12115;9221;7953;19067;52697];
[69640;1;1;1;3;19;3;85;127;475;391;293;2249;1211;1185;17133;6753;65517;98157];
[69667;1;1;5;9;11;31;57;107;315;983;1117;2189;4813;9925;26635;30589;32989;44195];
[69669;1;1;7;7;21;1;1;221;421;199;539;3981;4627;15655;12621;20427;11619;187185];
[69679;1;1;7;5;13;19;49;31;55;35;1847;3173;475;15245;30907;50075;130837;87283];
[69688;1;1;7;15;13;47;13;17;169;185;1411;1689;2339;2159;10591;52283;26785;255707];
[69699;1;3;5;7;3;29;7;83;329;747;1755;1067;2565;2437;12309;15043;97589;69409];
[69756;1;3;3;9;19;49;9;231;427;131;485;1637;1129;14723;19071;47997;74613;171539];
[69759;1;1;1;1;5;17;105;39;313;407;1321;3013;8035;4395;15917;21105;53599;21341];
[69770;1;3;1;15;7;35;5;153;485;1019;713;1891;5023;13885;15911;48215;81719;228189];
[69772;1;1;3;3;19;3;103;55;221;847;27;1653;4887;3617;30235;42353;67007;21443];
[69826;1;1;7;15;15;39;65;189;251;411;1953;1187;141;14919;7763;50879;2569;63467];
[69840;1;1;7;1;15;3;37;133;11;745;697;3755;1233;2009;25597;40661;40743;198117];
[69846;1;1;7;15;5;17;13;253;197;491;1499;2141;6803;13833;27297;385;54341;64305];
[69868;1;3;5;7;3;11;19;193;441;575;1649;1821;2621;15803;7343;37361;16467;60629];
[69885;1;3;3;11;11;29;109;1;83;475;1913;1975;1289;5221;24221;7479;26683;203435];
[69946;1;1;3;13;3;35;119;131;323;413;147;4009;3167;11161;30523;65223;109859;239317];
[69966;1;3;1;11;25;17;103;165;437;163;1141;105;3655;8105;20859;50727;27915;19309];
[69973;1;3;3;11;9;59;17;135;131;781;675;2865;7287;11431;3717;56691;54971;83433];
[69977;1;1;1;11;3;1;59;35;299;927;1761;823;287;13271;30321;32895;45961;23151];
[69980;1;3;3;7;11;3;11;115;241;497;1359;1789;6677;2683;21145;58185;46131;17591];
[69984;1;3;1;3;17;5;65;169;247;1001;1183;1801;759;2797;28721;7549;112463;127451];
[69994;1;1;1;11;1;49;5;227;333;793;759;2845;6261;6325;6581;35853;39737;21457];
[70024;1;1;1;3;7;17;81;105;453;207;1113;301;4933;14715;18815;29165;85251;209171];
[70044;1;3;1;13;3;25;7;109;249;649;1009;937;659;14605;13325;26003;45507;166837];
[70053;1;3;7;11;19;57;55;213;261;325;761;3167;6823;15039;13329;30195;52103;27877];
[70086;1;3;3;11;31;45;3;185;225;143;651;327;4263;6005;31577;57779;90485;48393];
[70113;1;1;3;13;9;21;97;63;285;531;1275;175;693;3735;15137;62193;80533;196545];
[70120;1;1;1;11;5;25;101;111;101;17;1999;3709;19;5087;20151;4781;88417;186293];
[70131;1;1;5;7;31;37;39;85;451;189;1521;619;5021;2601;32447;43513;8317;170611];
[70150;1;1;7;1;25;45;33;111;443;719;1869;3619;5751;2649;27823;55465;113203;23875];
[70178;1;3;5;15;19;47;49;241;75;395;307;1001;137;7029;21661;39159;94129;106693];
[70198;1;3;7;1;7;35;85;27;285;975;565;2119;5861;9229;15877;25017;10551;155357];
[70227;1;3;3;5;29;41;17;159;211;571;907;1745;6541;11643;4441;54599;83359;57227];
[70285;1;3;7;5;19;11;37;191;75;443;1833;1715;6949;2477;31161;15647;84305;82887];
[70288;1;1;3;9;29;35;87;11;147;443;1659;2457;1615;16135;10729;31583;111583;52607];
[70291;1;3;7;1;7;47;55;133;53;23;225;2689;3075;12435;8337;37065;58631;247415];
[70309;1;3;3;9;23;39;5;17;353;443;627;1609;5277;3899;31111;5935;25445;161043];
[70334;1;3;3;11;31;11;97;99;37;169;1361;689;5481;5935;11957;36761;105641;250905];
[70339;1;1;7;15;31;33;3;201;125;649;315;497;7715;2331;9081;16073;88459;70475];
[70381;1;1;7;13;25;25;39;193;185;253;495;1143;3745;3459;10935;22029;70213;245827];
[70413;1;3;3;11;1;47;93;27;117;755;1837;4045;4839;3413;21395;41905;6505;158029];
[70414;1;3;5;5;3;41;23;207;3;409;1635;3511;899;747;10623;44933;62439;75577];
[70481;1;3;7;15;1;15;113;175;43;513;515;1295;1903;9961;20995;57319;40649;22799];
[70488;1;1;5;9;7;25;99;167;117;547;777;3819;4409;13465;3963;53355;67895;58007];
[70493;1;1;5;9;25;9;11;113;455;563;143;1507;4055;6805;25027;37645;475;193193];
[70515;1;1;1;11;15;27;123;199;229;27;1285;4013;6541;11203;23705;56821;59665;151109];
[70540;1;1;3;1;31;19;27;129;235;407;865;2723;5387;7727;2309;45787;118107;199907];
[70543;1;1;5;15;17;1;21;167;165;203;745;825;7993;15191;13731;13417;543;201511];
[70558;1;3;1;1;29;49;45;81;321;755;1319;633;4889;7809;6305;58233;20213;144915];
[70568;1;1;3;13;1;31;73;173;111;961;1995;3827;879;5567;31103;13227;126611;204507];
[70582;1;1;3;7;21;3;75;137;125;981;1991;1167;1249;3821;19503;52855;122329;68717];
[70593;1;1;1;13;17;17;69;167;327;635;427;2125;7499;9715;24097;39361;64301;63411];
[70596;1;1;1;1;31;57;55;31;289;251;823;2301;5965;3381;479;39545;93051;68683];
[70613;1;1;3;3;15;27;117;37;29;851;1891;3507;6279;323;11451;57961;41487;188359];
[70620;1;1;5;1;25;55;125;207;129;849;589;1381;3395;645;1157;29285;105423;104429];
[70647;1;1;7;7;9;47;41;103;473;395;883;1087;2827;9685;6313;15461;39803;254865];
[70666;1;1;7;3;17;55;71;119;159;185;1415;3033;3045;1403;18349;2727;123995;45953];
[70710;1;1;3;15;17;11;19;25;483;29;1329;1779;2885;6655;28327;42255;87555;211051];
[70719;1;3;5;11;29;19;43;141;157;87;1091;3505;3139;11919;12123;31581;116229;167875];
[70721;1;3;1;5;25;55;113;219;491;607;1641;3833;3153;1881;16027;39923;38551;204819];
[70722;1;1;5;3;7;9;73;181;305;211;1699;983;3051;11643;12445;44827;74613;199699];
[70742;1;1;3;5;23;21;115;49;311;205;963;1357;4013;8357;7065;47757;7937;249935];
[70757;1;1;1;9;23;61;21;165;9;829;457;3975;5831;10901;15871;36769;45899;162083];
[70764;1;1;3;3;25;41;91;45;37;939;299;3815;6433;3121;10585;62125;51333;171615];
[70781;1;1;5;11;1;1;39;45;141;803;1493;1151;6243;8683;30223;53661;7949;197291];
[70795;1;1;3;1;17;35;29;253;395;933;1015;3431;139;9095;30745;39747;58837;28517];
[70803;1;1;5;3;21;17;105;21;249;387;1985;951;6323;8221;24601;57367;18751;240661];
[70809;1;1;7;9;5;21;23;149;243;501;935;855;1821;15885;2239;39091;93615;31411];
[70821;1;1;1;3;23;11;43;5;65;193;1723;3253;7533;12987;571;56073;125061;97117];
[70846;1;1;1;13;13;21;113;79;115;867;777;2199;501;2913;18697;14959;18369;41631];
[70882;1;1;7;13;13;53;101;165;447;995;587;201;1701;6429;8647;59265;27321;110841];
[70887;1;3;1;3;25;35;67;95;173;877;1133;3027;2321;12517;4313;24469;40313;253095];
[70940;1;1;1;9;17;33;103;141;259;963;1975;2979;5017;15689;30659;55145;73737;43539];
[70961;1;3;1;15;7;7;7;1;267;415;1591;17;2451;13415;6993;16631;90019;237161];
[70996;1;1;7;11;11;37;107;143;263;49;1391;3269;6139;1413;26557;16369;86789;89151];
[71012;1;1;7;13;27;41;3;169;453;547;157;3219;4711;9805;10657;8121;40229;247825];
[71046;1;3;3;3;25;25;109;253;67;901;259;1159;6161;6763;19669;42775;74089;69821];
[71057;1;3;7;15;11;25;91;137;247;851;511;1847;1179;411;9545;31275;46201;169677];
[71060;1;1;5;3;3;61;19;167;491;765;1997;3267;883;15439;27581;24865;128245;130055];
[71063;1;1;3;9;17;61;7;109;325;347;1109;889;2995;4763;21551;60137;91833;126989];
[71079;1;3;3;7;5;17;61;107;209;577;885;2611;1471;7549;16199;12319;48865;242229];
[71080;1;3;5;1;5;49;85;177;213;583;857;179;1805;4297;5835;61923;22741;261983];
[71111;1;3;1;13;1;1;83;227;457;375;567;1563;2085;8153;12563;44561;115487;188351];
[71118;1;3;1;9;15;39;127;135;181;967;1495;3187;7463;9651;26261;57435;42069;48549];
[71129;1;3;1;7;5;31;111;19;19;855;273;2089;6001;2799;26013;6625;75623;150185];
[71136;1;1;7;1;31;19;15;159;35;791;1005;3947;7031;41;28807;45299;37761;101191];
[71142;1;3;5;3;15;7;7;67;329;367;843;2309;3023;5369;21561;18881;14395;193369];
[71145;1;3;3;11;21;53;3;251;87;131;563;847;8049;1639;30103;30461;108427;125197];
[71151;1;1;1;5;21;45;79;229;29;133;1873;261;4221;3091;25569;11219;70693;227025];
[71163;1;3;1;5;17;9;75;101;155;311;789;821;7361;3791;18511;57607;97647;42107];
[71218;1;3;1;11;21;39;33;179;7;775;55;3779;6163;3575;27535;32363;9169;57133];
[71223;1;3;7;3;19;33;19;11;173;175;219;3585;1115;15693;23481;45669;94149;19531];
[71232;1;1;5;11;11;49;29;217;229;757;1031;3833;4235;13535;8765;20707;52851;9037];
[71237;1;3;1;13;25;61;65;111;95;533;1235;2947;3239;9513;11395;9321;117535;228289];
[71272;1;1;1;3;19;33;13;233;331;811;1931;1109;7705;3129;19757;44325;97903;165311];
[71323;1;1;3;15;13;55;57;81;257;613;1305;653;6059;4935;15707;4717;1859;109265];
[71339;1;1;7;15;15;19;19;91;213;311;1651;2215;6985;2989;11961;28647;111163;217187];
[71341;1;3;3;5;15;31;45;193;119;11;511;3155;5989;813;32655;41531;121007;24733];
[71349;1;3;7;1;19;63;61;11;225;677;1323;1655;7607;15691;27083;56743;116167;250413];
[71368;1;1;1;15;7;25;27;213;171;1011;1483;119;6849;12527;20601;35701;68377;245669];
[71379;1;3;7;5;27;5;7;117;127;871;631;3395;1501;4839;1857;45769;107597;90385];
[71395;1;1;3;13;1;15;49;69;479;919;881;3069;5609;12795;30225;14411;122847;75569];
[71407;1;1;5;9;1;15;91;207;235;667;321;2047;841;16049;12499;8799;8245;42199];
[71421;1;3;7;15;11;19;99;163;331;953;791;3443;3215;8025;1999;43685;72595;153185];
[71430;1;3;1;13;25;23;17;133;59;233;151;1971;3611;3951;16979;991;73325;158475];
[71436;1;3;5;11;1;53;123;81;285;457;1183;489;939;3069;15845;24799;81301;105187];
[71454;1;3;5;1;11;5;61;151;5;813;1347;1107;4915;4035;18709;20909;60569;55007];
[71467;1;3;3;7;27;41;79;193;471;415;937;2561;1669;9213;21145;44917;64763;33195];
[71472;1;3;7;13;31;5;71;237;419;957;1741;2829;5879;8143;8717;48995;114465;110295];
[71478;1;1;7;3;7;23;83;161;381;313;383;2813;333;4647;18321;10437;111645;55509];
[71481;1;1;5;9;23;1;83;121;245;37;1097;1437;3891;2727;30775;27649;95571;216245];
[71501;1;1;5;7;1;43;59;253;329;421;791;3945;2599;2243;11121;37761;27223;176867];
[71519;1;3;5;5;25;59;85;155;367;291;1025;1415;7871;14191;23249;32233;93253;177869];
[71530;1;1;1;9;21;41;111;241;177;999;779;2827;1683;6405;16133;26523;102567;190313];
[71550;1;3;3;15;13;59;69;239;231;511;1675;147;4041;3723;29191;24913;15601;198141];
[71573;1;3;3;9;17;29;1;107;243;509;1949;205;1693;6339;31591;61527;128043;222497];
[71593;1;3;7;3;21;7;87;57;9;209;1831;2189;5523;8509;23687;46221;87469;146815];
[71608;1;3;7;9;5;45;51;207;401;681;469;1951;793;16379;32143;55457;91787;178569];
[71619;1;3;3;9;19;15;121;143;243;795;1839;2411;7175;11535;31995;4157;20111;92653];
[71622;1;3;1;1;1;5;47;107;455;429;1411;2375;2823;14657;16297;21893;115257;50343];
[71636;1;3;5;9;19;63;55;197;281;797;1539;2601;4497;1631;26583;23819;104553;27285];
[71650;1;1;3;9;23;41;123;37;327;789;1711;1299;6735;7243;30635;21251;56081;65623];
[71655;1;3;7;15;25;49;89;231;133;1003;351;765;7115;16239;1141;44063;31519;233719];
[71685;1;3;7;3;13;37;93;83;59;539;1185;525;705;993;1113;1871;60817;254075];
[71703;1;3;7;11;25;33;23;21;141;451;25;1321;5139;8947;10305;30175;43123;113049];
[71714;1;3;5;5;17;1;125;211;143;637;1175;1149;6775;11091;12503;5537;35379;30045];
[71748;1;1;1;15;17;31;123;33;279;831;1247;2305;1033;3201;231;23173;34453;66617];
[71758;1;3;3;1;3;1;23;115;421;553;273;4091;5965;7521;18393;31229;78533;243921];
[71766;1;1;7;15;15;29;73;165;391;215;1801;45;7451;6969;27897;36599;103647;145165];
[71772;1;3;3;13;5;7;67;81;477;301;1397;921;3777;12431;14753;50555;24497;52995];
[71785;1;1;5;5;27;21;91;155;405;347;1135;3701;2471;577;3927;52605;1725;25803];
[71794;1;3;1;3;15;57;117;175;437;13;1821;649;899;1295;2753;2183;47923;163407];
[71796;1;3;5;9;23;15;103;179;233;787;715;3751;3321;2069;8299;43417;96549;180737];
[71803;1;3;7;9;1;41;81;205;141;707;397;763;4797;8843;3311;37425;43873;131491];
[71809;1;1;5;3;9;29;123;163;15;871;159;2615;6987;471;25653;11295;94481;195409];
[71858;1;3;7;3;13;7;9;59;59;381;2027;2639;59;7977;14505;34327;99113;157439];
[71863;1;1;5;9;27;13;87;85;443;531;1069;3479;6547;13943;13711;11007;37395;190293];
[71878;1;3;7;9;19;47;95;229;395;979;359;1799;7389;14377;19371;56785;6699;215433];
[71895;1;1;1;5;21;15;59;17;281;585;293;3029;2539;16089;19;34757;115811;235565];
[71899;1;1;7;11;27;19;55;217;475;119;1291;1761;6879;4355;30019;17573;14987;204623];
[71906;1;1;7;11;29;47;5;201;165;845;385;2903;7735;10855;14171;17881;45001;100725];
[71908;1;1;5;5;31;57;99;35;315;363;1135;897;1041;729;26987;15299;29563;67293];
[71917;1;1;5;7;27;13;99;81;491;887;1309;3343;7241;1289;12021;52533;101799;238721];
[71952;1;1;1;11;27;49;79;235;49;215;2003;2771;5943;1183;31931;33885;56971;52665];
[71957;1;1;1;13;13;1;123;1;191;747;859;2287;5113;3715;2217;61483;195;237163];
[71961;1;3;7;15;13;13;17;207;141;821;231;1373;5355;6503;2403;18183;83717;170047];
[71973;1;3;1;3;13;11;41;51;443;201;1349;2331;1009;16169;5247;50315;15589;150497];
[71980;1;3;5;13;29;21;93;55;27;17;1615;3473;3641;10999;31955;4699;23585;141243];
[71997;1;3;3;11;11;27;125;139;53;637;241;2651;4999;5923;16203;13645;95965;94459];
[72017;1;3;7;3;9;53;87;171;489;691;303;3599;6093;841;3527;12953;22907;69823];
[72060;1;1;5;13;31;11;33;207;437;683;703;1757;1443;14269;12677;20877;46791;176135];
[72091;1;1;7;1;13;53;123;199;173;585;1099;3653;2253;13741;15675;38755;74545;139053];
[72097;1;3;3;3;17;11;1;161;383;409;605;889;827;263;9677;42857;127691;99621];
[72166;1;3;5;9;21;21;11;151;199;695;493;569;881;10533;11255;61997;124921;211139];
[72172;1;3;5;5;9;47;109;7;195;287;97;3691;6929;6985;3063;16185;6313;228147];
[72183;1;3;1;3;3;9;107;243;391;893;1207;2229;5295;723;14753;10921;104147;214941];
[72203;1;3;1;9;5;63;63;247;413;805;285;4001;6735;3531;25949;44845;66959;194429];
[72205;1;1;3;1;15;15;43;69;419;739;1739;1091;1043;3217;1139;44749;74131;165145];
[72213;1;1;3;9;17;53;119;25;427;791;1873;481;6793;4767;30449;18079;52105;260371];
[72214;1;1;3;15;15;41;15;53;395;571;1727;3081;4531;4215;22359;18165;91843;157273];
[72230;1;3;3;9;19;15;55;185;321;285;695;1067;2551;1401;20023;22671;21365;89053];
[72239;1;1;7;15;23;57;71;141;57;479;543;3783;3635;14011;23603;40877;21837;81079];
[72248;1;3;7;11;31;5;83;177;105;981;331;2901;1781;8407;30199;19287;116219;78471];
[72251;1;1;1;9;7;13;61;21;299;15;1045;475;7141;4827;5921;17323;42909;203623];
[72280;1;3;7;1;17;59;99;221;77;37;1263;2137;1567;12473;20029;9231;32739;17021];
[72313;1;1;1;5;23;61;39;13;97;191;1479;19;1913;3185;32393;59067;5483;158895];
[72338;1;1;1;7;5;51;81;223;435;939;781;1153;6409;6369;30559;19007;50121;26525];
[72340;1;3;3;5;29;1;57;127;153;897;161;683;295;11207;245;1819;3061;242609];
[72343;1;1;1;7;5;19;105;57;263;433;1339;1479;6671;9917;26299;4573;68725;195];
[72368;1;3;5;15;1;19;45;95;155;117;367;2051;1053;8847;6399;23641;95355;98415];
[72371;1;3;3;15;3;1;5;115;349;747;1865;1669;659;7097;7871;3685;11013;59837];
[72426;1;3;3;5;9;47;51;131;327;903;975;2481;3509;12481;4049;38053;4629;254415];
[72439;1;3;5;9;31;47;1;29;37;683;1363;2527;4019;4965;14077;14191;101;1945];
[72446;1;1;7;1;9;35;41;187;509;33;385;3907;1461;6827;6931;44723;109495;184641];
[72494;1;3;5;9;5;49;21;171;353;927;409;913;5199;11747;8777;19891;63189;118839];
[72519;1;3;3;1;27;49;43;157;75;469;787;3957;4147;13919;17489;57103;62091;135589];
[72573;1;1;3;11;7;45;29;177;185;185;1537;127;121;817;31269;1677;20245;3835];
[72577;1;1;5;3;21;9;67;79;391;971;1711;2607;5705;12863;12415;41255;26447;1643];
[72578;1;1;5;5;9;63;67;245;31;225;309;1753;1507;817;4275;51843;22331;196875];
[72614;1;3;1;13;15;39;3;245;147;485;241;2507;1859;7299;15037;41139;82757;224031];
[72628;1;3;3;15;7;51;9;103;37;643;25;2067;7619;11991;12885;46809;109107;22393];
[72640;1;1;1;9;1;55;119;85;115;827;187;2241;2553;577;12115;2391;69705;232101];
[72676;1;1;5;7;13;61;125;129;475;703;1723;3233;5713;1941;21375;42119;75199;73163];
[72708;1;1;5;5;5;21;73;155;493;81;1627;827;5925;7391;1587;39425;11807;64385];
[72717;1;3;1;15;27;35;111;183;283;335;1387;669;6041;11637;26255;21113;121183;219703];
[72766;1;3;5;15;15;23;119;91;197;809;975;3275;6171;11769;8385;5461;4561;29159];
[72786;1;1;5;9;29;9;107;233;417;1005;799;1437;2679;15643;32341;54055;27861;115483];
[72788;1;1;5;7;27;19;95;153;175;407;215;303;8165;14791;2099;61797;129411;10461];
[72795;1;1;1;13;25;51;11;77;97;495;971;449;2833;7121;24105;34527;123135;129305];
[72797;1;1;7;11;23;9;111;101;169;233;267;953;6379;15887;22921;33665;95195;159707];
[72798;1;1;5;15;21;3;21;57;173;513;2027;1235;5031;5375;2717;23361;71817;232101];
[72808;1;3;3;11;7;25;43;65;19;135;1611;85;7673;6459;27813;55557;100989;25205];
[72826;1;3;7;1;15;37;55;141;239;205;647;3715;1617;13507;9847;64681;108711;231329];
[72835;1;3;5;9;21;27;79;153;335;299;493;887;1457;16011;13795;50205;43319;130963];
[72837;1;1;3;1;23;59;121;83;463;151;323;2977;4769;6011;20135;59541;23179;203487];
[72865;1;1;5;7;9;17;63;149;59;281;763;619;2551;8179;2963;61283;107727;119817];
[72871;1;3;7;3;15;39;11;145;141;965;505;2625;4335;7619;11007;43321;33199;212661];
[72872;1;3;5;9;9;61;27;223;5;941;513;1437;481;9651;6567;57945;52547;21283];
[72898;1;3;1;1;25;1;87;25;121;757;529;3857;1321;13479;5357;49341;5797;235895];
[72907;1;3;5;1;21;35;37;215;509;165;1423;3067;4779;4693;12523;48099;69283;255111];
[72909;1;1;3;1;31;15;45;127;339;331;1249;1075;6169;2941;30471;46789;118039;224651];
[72917;1;1;5;13;21;37;39;61;191;17;177;3719;2177;11039;20047;14489;20475;171235];
[72934;1;1;3;9;19;11;65;111;121;901;99;1861;3687;765;24861;46315;63433;171679];
[72987;1;3;1;7;1;51;87;199;241;909;353;2471;7163;9547;16351;41129;12217;194099];
[73000;1;1;7;7;17;17;127;67;51;217;1189;19;2099;10281;9071;21185;122821;110211];
[73005;1;3;3;7;15;3;53;45;77;665;701;3175;6151;2639;19819;1063;25079;203343];
[73014;1;1;5;11;11;5;103;11;481;999;713;499;5069;921;20619;25623;69601;82941];
[73023;1;3;5;9;15;61;67;79;371;993;475;617;1611;12513;14907;55313;39207;112653];
[73025;1;1;5;15;17;45;91;187;175;465;907;3371;3743;15657;30511;58191;105683;216759];
[73074;1;1;5;9;23;1;17;79;73;717;1785;677;7377;4511;21927;34341;47119;193977];
[73076;1;3;7;13;21;1;59;179;121;641;175;563;961;10549;15779;49875;8109;1039];
[73113;1;1;5;7;17;9;37;171;335;135;1403;2541;3845;15311;1905;40853;11013;255669];
[73116;1;1;7;1;5;23;113;111;337;755;2037;3067;2821;10549;28467;22615;71585;61871];
[73140;1;1;3;9;7;3;49;229;111;871;1711;1793;3089;12571;30883;44773;80827;151709];
[73149;1;1;5;1;13;41;3;253;399;881;1107;4081;1849;115;31557;2515;126751;195663];
[73186;1;1;3;1;13;31;113;85;57;549;1653;2927;5433;11879;22709;41675;13395;46931];
[73188;1;1;3;9;21;1;109;65;377;63;861;1031;2709;7265;9861;64109;34577;9743];
[73191;1;1;7;7;17;31;5;177;253;387;1271;2805;2211;1813;11649;3217;123793;197753];
[73205;1;1;3;9;15;63;89;59;455;783;1181;7;2309;15961;11231;37389;101221;119331];
[73215;1;3;3;13;7;3;15;251;431;951;639;1585;1247;15927;9695;37469;34945;219723];
[73216;1;1;5;3;21;29;83;151;383;227;215;2329;1297;13709;15653;3119;111319;222877];
[73239;1;3;1;13;1;43;127;125;243;955;583;3497;6605;3821;4657;10599;90927;82725];
[73294;1;1;1;1;15;51;61;167;489;603;873;907;575;6957;24409;63587;50205;159291];
[73311;1;3;3;1;19;23;7;23;239;961;1001;1541;2211;4637;19931;39153;102769;242005];
[73330;1;1;1;15;19;31;73;121;119;199;979;4061;3903;12055;27957;15999;5709;210329];
[73366;1;1;7;13;25;35;21;25;241;937;13;947;943;3727;15321;46665;99437;233919];
[73379;1;1;1;9;3;51;127;113;105;335;685;2173;4329;7569;5617;32407;21649;30609];
[73386;1;3;7;9;9;13;69;191;95;727;1649;1201;2093;10053;29381;6207;70755;118505];
[73391;1;1;1;11;21;57;77;139;271;21;1747;2337;7761;7753;6847;5219;87033;229105];
[73418;1;3;3;1;5;51;15;235;87;567;391;3039;2253;11177;11899;25305;14815;51051];
[73438;1;3;5;7;27;51;69;93;261;947;31;2751;6685;3655;24125;22161;108421;230865];
[73476;1;1;3;3;27;17;35;97;285;855;1767;2545;825;11519;11231;50951;32883;78573];
[73503;1;3;7;13;1;57;99;193;371;839;1319;2295;5897;7893;14339;64217;16951;234953];
[73509;1;3;1;3;11;37;13;21;299;379;63;1209;7879;5001;10181;40173;1753;104821];
[73534;1;3;5;9;23;51;75;103;249;533;621;15;1883;2109;20859;4635;120615;135515];
[73545;1;1;3;3;21;45;113;57;495;457;685;3625;243;14831;12351;63001;118191;153875];
[73548;1;3;5;5;21;15;65;251;183;241;1513;2711;4527;12675;26747;5181;4237;246479];
[73563;1;1;5;3;27;29;91;93;345;893;195;3109;2611;12657;10401;15063;95807;244587];
[73575;1;3;5;13;19;49;85;155;159;939;1139;1569;1129;8641;18391;55201;108491;77863];
[73582;1;3;5;9;25;53;75;77;85;903;1399;2379;2219;14725;21877;24271;40955;61849];
[73603;1;1;5;9;13;49;53;177;163;331;533;1469;1397;8187;12379;10185;125541;260271];
[73609;1;1;7;9;19;31;81;89;281;397;1917;145;2723;15019;18841;13887;11859;171749];
[73610;1;3;7;13;25;17;87;189;29;283;913;3855;5707;15881;12787;42357;84579;78531];
[73645;1;1;5;15;15;31;37;249;445;119;431;4069;5699;10119;31661;9555;6869;1145];
[73646;1;3;7;1;31;29;57;177;341;411;1019;1889;383;1461;26695;61777;18367;137233];
[73678;1;3;5;1;7;53;29;53;387;675;435;461;6247;7519;14003;9037;116599;54471];
[73685;1;3;3;7;17;59;91;77;169;591;95;113;6135;10479;17153;52953;16183;90775];
[73708;1;3;3;15;11;11;117;141;493;163;65;1305;7477;7383;22651;64271;80983;154845];
[73747;1;1;1;3;9;15;83;11;113;77;1115;1417;511;6825;21013;37241;104695;31335];
[73765;1;1;7;3;13;33;115;121;245;673;1991;2157;479;9843;5963;4637;8925;27751];
[73797;1;3;3;7;19;11;67;125;339;27;1545;2319;5977;11603;23219;48273;119265;20151];
[73810;1;1;5;7;27;29;31;227;279;405;1133;689;1133;8957;29629;48849;109995;259749];
[73819;1;3;5;7;7;61;95;243;91;741;1591;3169;2287;11015;15601;43043;65319;50671];
[73825;1;1;5;5;13;47;31;95;425;715;1603;3485;673;12869;32561;42329;112809;181971];
[73845;1;3;3;3;17;51;109;45;397;457;1379;3845;4215;14185;16597;27711;74283;98151];
[73855;1;1;1;15;7;25;13;49;441;513;1769;707;6037;9689;18915;35647;110823;196633];
[73866;1;1;1;1;23;53;93;61;277;125;55;2453;3331;14037;10809;33205;43785;248743];
[73890;1;1;3;7;23;15;93;77;333;801;1969;31;51;5239;24241;5077;113503;132211];
[73919;1;3;3;1;7;55;53;5;311;657;1507;3413;565;15745;6129;40285;91811;90527];
[73922;1;3;3;13;19;23;45;25;509;313;915;2199;5549;8469;32735;37877;11607;37993];
[73936;1;1;5;11;25;33;55;31;311;851;159;2103;2641;8957;9375;37179;33667;100513];
[73939;1;3;1;1;7;7;17;75;217;171;359;1169;4105;929;6427;56349;77985;41941];
[73964;1;1;1;15;5;51;73;63;259;351;1797;1001;5025;11203;30221;54345;11331;158415];
[73976;1;3;1;5;3;21;13;3;63;779;871;2517;6345;4103;16321;30211;120815;83751];
[73984;1;1;3;13;11;7;41;255;215;37;279;2485;6511;12855;22857;55695;122717;238151];
[73990;1;3;3;3;1;55;27;193;509;677;1861;573;5341;5285;6909;51781;91203;139791];
[74013;1;3;7;11;5;63;87;215;305;235;1049;1339;5301;9639;29861;58415;68303;76907];
[74014;1;1;5;11;13;13;67;139;19;577;165;3067;8023;10905;3159;41289;118231;119673];
[74020;1;1;3;1;15;5;69;119;363;703;461;2293;3801;14217;10709;9553;100651;186115];
[74035;1;3;7;15;19;21;59;237;227;193;827;619;3447;13815;3467;38911;41403;99627];
[74038;1;1;3;3;27;23;41;199;161;555;1629;3187;1355;5947;1157;25877;110989;231285];
[74069;1;1;3;15;3;43;103;29;179;223;375;2877;1917;9367;15337;15381;62833;139003];
[74119;1;3;3;11;23;33;107;189;511;209;1519;2809;6185;5921;20939;63879;113687;79149];
[74123;1;3;5;15;1;63;101;227;419;803;59;2261;6905;10679;5393;54447;58521;59855];
[74126;1;1;7;13;13;21;121;123;181;371;1485;3191;2627;6197;11169;44927;34739;10687];
[74153;1;1;3;3;25;47;13;115;187;967;1439;1021;4413;3343;31463;3729;13511;162125];
[74179;1;3;3;15;15;59;29;129;469;171;2045;2859;1097;11199;12147;37465;14179;197923];
[74200;1;1;7;5;13;35;41;167;207;123;1077;3145;2803;15729;767;7321;84375;190855];
[74210;1;3;5;11;3;5;65;3;111;725;143;2945;4755;3407;31801;15329;70311;119197];
[74216;1;1;5;3;17;19;61;73;261;663;821;3389;3883;9961;17727;33113;98371;247097];
[74250;1;3;1;9;29;17;43;43;481;1015;1249;607;3495;13259;29001;23083;51487;81723];
[74263;1;3;1;3;25;57;5;33;313;21;1731;3417;7033;6609;31631;63231;61107;10941];
[74264;1;3;3;11;29;29;117;131;417;789;1545;1677;3213;13869;5319;41387;13895;252387];
[74279;1;3;3;13;25;47;55;213;83;345;1453;159;1521;14777;24177;7631;81259;135411];
[74285;1;1;3;15;11;63;49;69;273;843;1661;1157;1285;12751;5;54909;114375;6395];
[74294;1;3;1;11;25;1;83;55;161;125;1547;401;7639;4289;7075;9971;33825;135071];
[74298;1;3;7;9;17;5;79;131;373;1023;573;2219;1789;5789;5347;26455;58661;206417];
[74303;1;1;7;5;1;43;83;107;125;289;793;1731;5167;8943;28397;26877;53781;95899];
[74306;1;3;3;13;21;53;123;103;385;753;1917;2075;4385;5757;9221;35797;86743;69069];
[74366;1;3;3;3;5;19;119;221;457;907;359;3493;2331;5685;11133;29293;27051;213927];
[74369;1;1;3;11;11;31;29;129;429;601;1217;3653;5935;14823;21161;33423;98391;214703];
[74403;1;1;3;15;31;49;109;139;349;13;205;2483;8083;8391;4789;30355;12165;195263];
[74406;1;1;1;9;19;63;15;167;45;185;811;529;6811;13441;27195;59047;106675;167125];
[74442;1;1;7;1;19;19;39;1;349;467;551;4081;4743;11627;607;22005;60893;49101];
[74450;1;3;7;9;9;25;105;119;113;825;1429;2019;5209;8491;6017;47783;88455;119083];
[74452;1;3;3;13;21;39;107;119;321;251;563;311;4441;6491;3157;65479;107349;211621];
[74459;1;1;7;13;9;3;17;117;327;459;489;7;6883;10047;31935;28069;37903;188281];
[74461;1;1;7;1;15;53;47;127;483;595;811;1143;4543;10043;30349;24409;91947;240165];
[74477;1;1;1;13;25;43;109;161;147;1009;1071;1533;2781;13439;20507;41387;26943;84675];
[74478;1;3;5;13;19;21;23;167;135;257;587;2691;5877;3047;11745;24895;114799;48003];
[74489;1;3;1;1;9;57;33;51;137;109;137;195;1233;11139;16833;27545;35877;126627];
[74504;1;1;1;15;5;37;7;19;363;411;1193;767;6209;9115;14699;55515;46023;90693];
[74528;1;3;5;3;19;55;85;117;391;757;861;3537;6507;6993;19589;6843;33557;64683];
[74533;1;1;7;5;5;61;99;9;311;595;807;429;63;12359;28289;709;129911;143745];
[74538;1;1;1;7;17;9;9;117;19;985;657;2803;2699;829;31069;13277;106769;109231];
[74551;1;1;5;13;25;19;63;217;419;221;1921;215;2631;4659;29855;46549;62257;260113];
[74580;1;3;3;9;13;45;63;129;147;489;879;3025;6777;1119;20963;30553;20863;169837];
[74589;1;3;5;9;25;61;79;51;495;583;1519;1501;123;13871;32239;957;31921;255561];
[74590;1;3;7;3;31;61;89;65;305;429;785;3871;7711;2745;24131;43055;51167;87743];
[74593;1;3;1;11;19;23;89;117;185;121;109;1327;6553;14367;16069;28657;81751;10185];
[74608;1;3;5;5;17;33;115;61;101;367;1465;3899;6601;4483;2447;49575;129987;11703];
[74611;1;1;3;13;13;59;79;83;253;171;53;2467;5005;1045;943;62419;98563;78935];
[74617;1;1;7;15;31;17;77;73;249;247;119;1655;7079;14593;105;55767;130401;74189];
[74623;1;3;5;11;19;29;79;251;75;949;527;2779;5839;11451;24125;45991;127437;86541];
[74648;1;1;5;7;1;29;127;27;477;807;829;1569;205;13319;16149;26003;38985;188587];
[74704;1;1;1;3;19;29;39;71;17;51;1169;467;7505;1867;4469;32161;43031;31675];
[74735;1;1;1;15;27;45;67;107;127;469;1955;1933;2379;8513;32071;35043;126537;23303];
[74737;1;3;7;9;23;41;23;197;97;213;17;1751;5467;6179;29291;33397;42131;151093];
[74738;1;3;7;15;27;3;39;87;365;77;487;293;6405;2239;30455;44723;12399;100013];
[74779;1;3;5;9;29;21;55;183;343;263;1643;2027;2255;6259;18277;64661;39391;255839];
[74781;1;1;7;11;21;55;11;139;261;11;1721;3779;85;8203;12089;50579;128341;119043];
[74809;1;3;5;13;27;53;109;1;313;661;431;1543;1571;7337;18857;49951;7881;228161];
[74812;1;1;7;5;5;31;27;149;239;199;1011;1979;5297;14609;26971;65531;64215;115109];
[74827;1;1;5;13;15;11;63;225;165;405;1367;2291;5171;12419;19561;37719;621;137607];
[74868;1;3;1;15;25;1;125;243;97;455;1977;3333;801;1343;993;18453;19285;71547];
[74871;1;1;5;11;9;51;109;135;73;147;649;4071;7425;3093;26417;51139;1523;142225];
[74905;1;3;7;11;1;39;109;119;337;715;1087;4005;1393;6397;31135;38935;106255;60723];
[74930;1;1;1;9;9;11;45;11;171;671;965;109;2261;13775;8539;63669;10507;249113];
[74962;1;3;1;15;21;33;127;173;419;31;299;857;4915;11331;29385;47375;111891;14505];
[74990;1;3;5;13;7;43;85;183;377;275;803;1755;8005;15327;31043;18851;122581;229731];
[74995;1;3;5;1;27;9;41;73;283;475;671;747;1419;15209;25465;60061;91417;103203];
[75007;1;3;1;15;15;43;13;45;217;519;363;3265;6213;13045;3709;22119;79733;224195];
[75012;1;3;1;15;15;59;95;71;171;769;1395;2673;4523;749;13411;60431;124651;11475];
[75030;1;1;7;3;1;35;13;239;101;355;1201;3665;5403;11413;11983;52469;63621;155819];
[75033;1;1;1;7;31;59;87;25;511;483;569;3337;4027;8347;3031;24351;57963;79425];
[75039;1;3;1;3;11;17;29;249;61;923;585;2107;2727;8589;22809;3;17937;163267];
[75055;1;3;5;11;27;3;73;187;19;975;257;2361;935;9071;29991;13619;92169;101031];
[75078;1;1;5;13;17;53;105;157;343;673;237;3231;7311;1593;18521;57889;79805;97847];
[75120;1;3;1;3;31;55;63;167;489;167;121;3333;2475;1545;13291;921;101757;62147];
[75130;1;3;3;15;13;17;9;209;339;567;2011;1737;1455;9289;6105;49733;74237;93195];
[75159;1;1;7;11;3;13;77;115;305;327;1005;3381;4269;4835;27221;16301;75173;244603];
[75163;1;3;5;7;7;31;47;75;499;41;281;167;3525;8649;23623;4987;2057;204083];
[75170;1;3;3;5;9;5;35;53;269;437;1035;1675;4567;13291;19787;28937;108915;62545];
[75193;1;3;1;5;15;59;57;181;321;1;791;2149;591;6691;8759;62861;10815;257331];
[75228;1;1;7;1;21;25;93;39;429;455;669;1725;7087;11805;22405;13083;88411;225967];
[75244;1;1;5;15;5;45;15;1;55;281;2027;97;2639;57;23717;21669;92181;32731];
[75249;1;3;7;3;7;3;67;201;445;577;1011;793;7763;10823;30309;41565;37263;218909];
[75328;1;1;7;3;17;53;51;119;399;903;1785;1053;4315;2967;17579;64185;55005;12969];
[75357;1;3;3;13;21;63;13;1;427;39;71;1811;1237;1623;11401;14371;44355;93089];
[75373;1;1;5;1;17;39;39;105;187;691;251;3957;931;12149;18299;48819;23061;49179];
[75392;1;1;5;11;31;3;23;211;101;763;237;3635;417;4935;14997;3859;22343;153541];
[75428;1;3;7;5;21;37;59;137;13;179;527;895;3451;1743;3149;10665;119427;259343];
[75438;1;3;5;3;7;37;103;173;453;327;131;2453;7795;12585;13947;59161;41845;29527];
[75469;1;3;3;1;17;49;57;251;295;279;1545;3963;589;9211;32371;14963;116927;197321];
[75487;1;1;3;7;17;59;37;115;315;591;481;767;4611;14741;6949;19507;6567;143371];
[75494;1;1;5;3;19;53;121;229;355;909;339;1645;2747;7045;9085;5799;50997;17981];
[75515;1;3;3;9;3;1;109;7;15;177;789;3911;6427;8453;22583;12039;124587;123887];
[75526;1;1;5;1;7;23;15;193;109;685;1147;3921;2329;15153;25045;28389;34759;256611];
[75532;1;1;3;3;23;27;55;43;485;541;1617;3761;1051;7525;19941;52699;35421;162939];
[75543;1;3;7;1;25;9;113;251;477;1005;9;3321;5817;965;18523;29407;53353;205575];
[75549;1;1;7;11;9;31;111;175;227;33;1745;1141;1547;2113;8785;40273;100301;190749];
[75559;1;1;5;11;19;49;45;197;457;223;91;2769;6331;1161;6609;61905;42257;152117];
[75563;1;1;7;11;1;17;37;153;431;933;269;1529;1297;15567;149;41701;59867;93631];
[75568;1;1;5;9;25;33;83;127;305;667;343;185;3527;13079;10567;35753;72191;214091];
[75598;1;3;7;1;1;7;75;241;185;81;2043;3081;3563;385;3055;59421;27081;32521];
[75612;1;1;3;5;31;1;101;21;69;979;917;695;5601;12251;15031;18715;116985;53071];
[75622;1;1;3;9;23;57;91;127;327;979;721;3855;1131;997;32227;33843;128299;15239];
[75640;1;3;7;13;23;1;87;105;259;939;1935;1983;6619;1611;31901;14745;96641;211945];
[75683;1;1;3;5;25;17;39;95;137;971;377;2493;981;329;25845;44513;100561;57985];
[75689;1;1;3;9;27;37;69;103;167;131;487;2935;7099;15375;4825;12209;117165;84909];
[75690;1;3;1;15;27;19;115;239;247;243;83;1535;8095;3953;25721;62983;89045;16783];
[75692;1;1;5;1;19;13;125;39;439;411;171;155;5117;15137;19851;251;37921;97209];
[75752;1;1;1;5;13;41;17;97;215;323;1333;775;1155;15269;19943;48489;71741;202501];
[75766;1;3;5;3;1;31;55;125;69;437;1649;2791;8027;15509;31575;8491;106953;155215];
[75769;1;3;3;13;19;45;39;63;227;67;2021;1243;6525;7211;6275;39719;74513;6713];
[75791;1;1;5;11;13;45;15;101;171;613;1561;2939;3849;2917;29765;2027;53617;59939];
[75794;1;1;5;9;27;21;119;19;441;759;703;2985;3007;2087;5207;64403;20273;66181];
[75806;1;1;7;13;21;3;49;3;485;883;1863;1925;877;10009;24191;58639;107755;106539];
[75809;1;1;1;5;27;37;23;185;281;533;437;555;8151;6489;22343;4573;91577;167919];
[75819;1;1;7;15;3;61;103;221;223;703;133;2923;1027;14643;26413;16523;107223;97185];
[75834;1;3;1;11;13;15;1;203;363;675;511;3225;1163;741;16063;8097;95905;148465];
[75895;1;3;1;7;11;11;11;243;371;129;209;3533;1279;12181;31973;29165;122089;115117];
[75908;1;3;1;5;25;17;31;45;215;809;1443;3245;1005;2903;20783;23041;96577;192063];
[75951;1;3;3;3;19;17;101;219;91;805;189;761;4771;11629;7285;21631;21691;47421];
[75960;1;3;7;1;31;11;71;149;303;793;35;3109;2769;11593;31839;2053;4541;202997];
[75965;1;1;1;3;11;19;113;249;141;659;1117;2145;2617;1075;25347;12913;27457;222095];
[75974;1;3;1;3;5;23;41;57;193;815;1293;1109;7597;999;10773;41065;18555;35617];
[75978;1;1;3;1;31;11;127;99;163;293;299;3415;3761;8781;5327;47631;56411;242787];
[75998;1;3;7;13;3;41;23;169;419;725;1419;2643;5265;77;24077;18639;78665;205303];
[76001;1;1;5;1;31;39;39;205;413;393;1713;309;707;4153;10461;16053;26963;253993];
[76007;1;3;7;5;23;37;125;87;199;631;1935;551;7047;4585;21257;42345;39365;249393];
[76016;1;3;5;13;17;55;29;209;151;465;155;363;3097;4093;9869;23297;33973;115543];
[76091;1;1;1;13;23;59;83;71;145;717;127;1299;1701;10885;5343;40793;87819;66621];
[76119;1;3;3;9;19;37;23;11;269;603;871;851;837;15303;7595;56481;57819;185065];
[76135;1;3;1;1;3;15;11;249;413;723;1403;3233;2747;10335;7127;63285;29237;191953];
[76170;1;3;1;1;11;31;67;139;51;413;521;969;171;5943;31613;16477;85771;202139];
[76189;1;3;7;5;5;21;109;25;463;873;493;2673;6409;11199;17195;40623;76821;72509];
[76214;1;1;7;7;11;1;95;43;243;67;1289;3219;2255;4957;17561;40499;48537;108809];
[76225;1;1;7;15;3;39;45;75;43;821;533;4043;1503;83;26937;56327;114149;156845];
[76235;1;3;1;1;31;21;59;1;77;147;137;1827;4123;2791;27859;57921;40569;134753];
[76259;1;1;5;13;31;41;111;11;181;963;459;2771;6123;4035;1627;2047;109537;33653];
[76261;1;3;5;7;31;57;17;21;5;761;1833;1279;1239;10089;22531;32547;82699;28389];
[76262;1;3;5;13;11;39;11;61;299;753;1067;1347;5189;12859;681;46309;31873;90333];
[76266;1;3;1;5;13;27;119;205;377;457;817;3017;279;1859;30241;52089;61445;176203];
[76286;1;1;3;5;11;35;17;163;27;1001;417;2899;1959;5513;1441;19743;67147;236591];
[76289;1;3;5;13;15;39;53;179;447;675;933;1261;4415;9845;28459;33497;107375;156855];
[76310;1;3;3;13;27;31;11;191;413;1011;2035;3965;2071;5429;16247;7439;15079;225041];
[76319;1;3;3;11;7;23;87;215;241;687;1351;2399;4677;12967;22957;10443;116701;155477];
[76364;1;3;7;5;25;55;5;197;359;879;619;1969;1513;12743;10953;28343;63685;39115];
[76375;1;1;3;1;19;15;63;7;305;343;1333;3845;377;14031;28383;4271;60063;11827];
[76392;1;3;5;15;25;21;115;101;171;735;787;3143;593;8793;4121;15471;53491;20617];
[76422;1;1;5;15;15;51;103;17;433;611;1351;1729;6147;11623;3;6319;6133;19029];
[76450;1;3;1;13;29;15;115;97;505;985;745;745;1459;7193;1247;58901;114255;212849];
[76496;1;1;7;1;1;53;99;35;377;723;1751;2625;5113;13295;20133;26831;41657;51717];
[76521;1;3;5;15;15;39;17;227;351;435;49;203;6959;11673;15755;29733;51445;64619];
[76522;1;1;1;3;25;51;57;137;415;49;355;2149;7607;10781;30363;43889;55543;36637];
[76527;1;1;7;5;5;15;73;189;153;949;527;587;513;12891;16765;41477;75569;80747];
[76536;1;1;5;5;9;5;3;225;115;125;821;3551;4833;927;24331;63669;26549;220159];
[76541;1;1;3;9;21;7;9;183;391;783;493;2785;3879;8311;9935;60629;119329;5791];
[76553;1;1;5;15;15;41;61;97;33;29;199;3335;1531;6107;757;33797;3001;224507];
[76568;1;1;3;9;13;39;25;247;407;1;1129;1453;7091;5557;8657;33961;100763;25099];
[76574;1;3;3;13;31;21;69;73;431;827;861;235;2369;4283;27183;29095;99957;97577];
[76584;1;1;7;13;1;25;21;173;365;921;21;3527;2481;8795;25621;41755;127249;221385];
[76604;1;1;1;5;25;25;65;203;305;373;527;4033;3483;9403;28669;32083;52273;77037];
[76607;1;3;1;15;9;23;19;7;29;83;1163;1147;5315;2381;21203;33915;109511;40669];
[76609;1;3;7;15;23;19;69;127;113;937;935;1067;2431;7677;21327;44095;82799;5715];
[76669;1;1;5;5;7;37;107;223;433;515;393;1721;1977;6383;18835;54841;103263;196997];
[76683;1;1;1;3;1;11;85;173;259;685;595;1635;6979;4483;8097;42249;56259;105925];
[76745;1;1;7;7;1;23;11;253;187;665;313;3745;2423;15835;32085;48643;75625;47511];
[76753;1;1;3;5;1;59;127;83;501;387;977;3515;7921;12329;14757;20287;49699;91237];
[76754;1;3;5;11;31;45;51;109;319;621;1013;3519;4023;12099;28829;26691;83131;261497];
[76756;1;1;3;3;5;35;51;253;253;569;1017;2299;8159;13783;22123;55213;111527;110699];
[76760;1;3;7;3;9;5;59;129;41;845;723;1607;3047;14323;19277;39447;12465;45925];
[76782;1;1;3;1;17;35;51;79;115;361;739;2037;6167;14699;28187;65271;67285;48489];
[76821;1;3;1;11;1;29;95;181;419;235;745;621;3889;2933;743;23801;32057;54103];
[76828;1;3;1;11;17;47;43;55;7;695;1653;3983;961;3037;8669;10039;86571;6981];
[76849;1;1;5;15;13;19;67;141;291;511;1913;397;7423;6541;21845;49821;126047;218587];
[76850;1;1;5;3;11;13;103;213;189;115;1495;2695;2127;11979;13609;46615;64775;206417];
[76870;1;3;1;5;5;9;57;207;253;251;1155;1319;6699;6613;21757;49703;124879;89987];
[76874;1;3;5;7;23;25;35;81;165;789;771;415;5557;8431;12043;44359;9447;229481];
[76898;1;1;1;13;17;21;63;251;387;767;85;3901;3227;10329;5049;56173;58065;78595];
[76903;1;3;1;15;23;5;45;7;123;389;1041;1223;5865;5365;2915;24861;106893;170769];
[76910;1;3;7;15;27;61;27;59;309;103;279;1829;1501;11277;4461;34817;60973;99805];
[76921;1;1;3;9;1;25;57;85;411;699;911;1643;2687;13539;10187;21597;18883;212975];
[76968;1;1;3;7;5;7;81;209;225;321;1867;2189;6315;5393;8859;47471;41677;222455];
[77013;1;1;5;11;27;33;119;159;273;659;883;3773;6519;15449;17219;23923;33749;225489];
[77027;1;1;7;13;29;39;1;161;165;531;1019;2369;2093;4341;24945;28537;49467;258065];
[77042;1;3;3;3;15;59;23;143;377;943;1329;977;7025;2167;17973;65087;115757;75959];
[77059;1;1;1;15;17;55;33;167;43;719;51;3873;3317;10763;639;58195;20023;100725];
[77062;1;1;7;5;17;23;71;249;23;929;467;3073;3355;1343;18755;12247;49737;184103];
[77074;1;3;3;15;1;9;17;193;157;265;983;1825;4805;2131;22117;32937;57;261867];
[77076;1;3;5;9;5;1;101;141;511;489;73;1789;1303;2633;709;11891;44897;191229];
[77110;1;1;7;15;1;27;121;7;129;421;725;1421;3883;13335;7247;8393;85029;127691];
[77113;1;1;3;9;19;53;121;115;85;909;1535;3261;7063;16381;1719;19847;19041;215433];
[77131;1;1;7;3;17;45;91;187;181;829;609;931;5727;3971;14567;15871;9825;184165];
[77157;1;1;1;3;5;29;7;249;361;815;1101;1485;6879;5379;7179;27467;101427;196089];
[77158;1;1;5;7;23;11;27;175;237;747;1911;3107;961;6649;29887;11003;27561;233841];
[77216;1;1;1;5;11;5;125;227;303;315;1879;817;7445;1447;9333;54825;118865;216397];
[77246;1;1;3;13;17;33;27;95;245;25;1741;2633;1869;14111;24507;61287;46397;220803];
[77258;1;1;7;7;25;5;41;101;171;333;497;3417;4921;4553;25487;51529;72873;43525];
[77281;1;1;7;7;9;19;25;161;235;929;1663;3237;323;3889;31423;2345;63113;212659];
[77284;1;1;5;13;29;59;39;25;393;519;429;1461;5867;113;28091;36813;47827;163407];
[77294;1;3;5;13;15;49;85;161;83;389;765;3349;4659;11007;24749;51121;93511;229885];
[77302;1;3;5;11;5;27;107;233;221;425;941;1181;5403;4373;32625;41991;2019;245967];
[77306;1;3;5;9;9;53;97;27;221;731;1301;3517;4407;11369;4251;31121;4813;42029];
[77315;1;1;1;9;17;59;107;247;231;123;1177;3299;6163;4855;14547;63171;45201;27711];
[77352;1;3;7;3;25;31;63;37;123;457;1531;3723;4807;14665;17973;42547;5417;170323];
[77360;1;3;7;3;17;19;57;7;359;741;385;3127;855;10803;30093;24501;53629;40447];
[77365;1;3;7;15;11;45;49;125;445;795;113;2425;7085;7337;16297;26447;94369;12371];
[77370;1;3;7;9;29;59;35;191;123;619;415;1081;2469;4125;25587;7853;119781;9447];
[77378;1;3;1;15;13;13;111;89;381;757;389;253;6929;33;8263;17385;122129;146679];
[77380;1;1;3;3;15;35;101;95;479;577;1645;3781;7533;4665;6561;49897;72413;151383];
[77407;1;1;1;1;7;49;23;223;189;763;227;2805;8093;389;11525;30915;91341;210231];
[77408;1;1;7;3;19;23;3;137;79;569;1833;2091;4235;10739;22855;33845;120141;220267];
[77414;1;3;7;3;11;43;85;63;419;681;365;3017;3603;6413;13515;16003;107949;241261];
[77444;1;1;5;13;3;35;41;193;189;999;1395;2431;2227;7245;23929;16137;14591;54999];
[77454;1;1;7;15;23;51;47;77;31;25;589;611;371;13329;5873;2133;40351;145293];
[77481;1;1;7;15;17;19;53;155;309;573;1059;3557;2445;12205;4497;32061;130293;73859];
[77482;1;1;7;13;3;25;71;157;237;185;1035;1759;1331;13533;25635;811;54391;91109];
[77531;1;1;1;11;5;21;99;31;259;413;2033;2187;755;4591;28641;64031;88499;160789];
[77544;1;3;7;13;29;33;13;157;97;981;329;81;6351;4171;10925;22733;72521;105477];
[77552;1;3;7;9;11;31;97;35;337;309;847;3429;2697;3141;19481;43679;11129;205757];
[77569;1;3;1;7;27;45;123;193;439;639;633;1375;7307;1599;23379;56811;100877;228687];
[77579;1;3;7;1;29;43;103;131;103;933;143;2431;2221;4565;20841;58611;49163;13673];
[77610;1;3;5;13;25;17;121;17;455;941;1577;509;5401;797;29573;38373;50527;17951];
[77612;1;1;1;13;25;21;77;253;199;871;935;3919;1687;6653;20345;56969;77989;244767];
[77623;1;1;3;1;17;5;5;191;279;33;579;651;969;6091;11659;1643;17935;85145];
[77649;1;3;3;9;29;1;103;39;83;295;1237;207;4837;7899;27879;23195;29549;206885];
[77650;1;3;5;1;9;55;115;37;225;447;943;1133;6203;949;9973;4309;43969;166795];
[77661;1;1;7;7;17;43;75;251;35;489;1011;355;4113;2377;13775;34935;84905;252973];
[77675;1;3;3;3;11;45;3;1;135;499;81;3265;6657;3875;27565;60931;13117;87931];
[77686;1;1;3;1;9;1;77;69;137;241;1613;2607;3307;171;13551;54529;45937;180411];
[77742;1;1;1;1;19;29;77;255;95;461;567;1103;2753;10627;19479;43411;128565;29869];
[77791;1;1;3;5;5;63;123;159;165;733;1107;1711;5039;9221;15541;5527;27629;206505];
[77792;1;3;1;3;7;45;73;63;413;693;433;2281;3981;7719;31473;56939;70391;67467];
[77807;1;1;1;11;19;33;113;151;427;603;1653;2451;5367;12171;14373;33175;62013;209273];
[77815;1;3;5;5;17;37;109;5;187;293;617;2663;7381;14217;23561;48999;108717;248289];
[77842;1;1;5;1;9;27;35;127;355;479;281;2081;7303;259;8893;59141;20927;61611];
[77847;1;3;3;15;31;33;71;209;315;363;593;1035;8029;12501;2859;54745;39391;153259];
[77899;1;3;3;11;21;39;35;173;171;15;987;3737;7415;1827;973;6831;108643;241333];
[77901;1;3;7;9;17;37;127;243;153;195;113;309;5301;13619;7927;35385;9501;99241];
[77904;1;3;5;13;23;9;81;235;139;635;443;2235;2613;2389;18431;8409;2885;254811];
[77914;1;3;7;9;1;5;15;109;141;173;1059;1961;7945;10381;17337;19591;42173;119831];
[77925;1;3;1;13;19;7;111;111;345;327;1147;2293;49;16213;25309;60537;50421;108467];
[77950;1;1;5;1;3;23;63;219;69;879;1397;3857;1859;1939;4851;26549;86019;7927];
[77959;1;3;1;13;23;61;25;31;301;189;1031;2817;829;8777;26869;54405;43535;234687];
[77994;1;1;1;9;11;31;13;139;77;567;949;3415;6955;14973;9565;37911;18395;94167];
[78004;1;3;5;13;17;17;21;213;171;993;1001;979;5085;3909;11797;48669;73541;48979];
[78043;1;1;7;9;7;37;35;107;347;239;585;2883;3235;1053;14871;25799;4861;56335];
[78052;1;1;3;5;19;7;91;139;325;921;863;209;845;15943;8281;55103;110193;216091];
[78061;1;3;1;13;31;33;65;155;177;103;1991;343;6299;3587;30215;64335;114301;220403];
[78064;1;3;5;3;31;37;121;157;443;349;1097;3683;503;14061;14685;29755;61543;232983];
[78084;1;3;3;11;17;59;29;161;381;791;1647;1077;6369;1095;17279;43141;65003;144609];
[78094;1;1;5;1;1;15;67;77;3;585;1909;1485;3003;591;4711;10279;75901;226417];
[78099;1;3;7;5;1;5;5;193;469;631;1065;607;2751;8163;13633;40563;1417;118169];
[78129;1;1;7;9;25;25;109;27;157;495;225;1385;4315;995;10591;1629;129939;56765];
[78142;1;3;1;7;9;23;61;63;35;145;1537;1029;4225;1467;10519;32861;519;53983];
[78149;1;3;3;11;7;59;25;199;403;967;1089;1121;1063;6701;16827;55479;72983;36873];
[78153;1;1;1;13;9;27;19;23;395;229;1837;1231;1737;10475;16743;42369;130331;47255];
[78171;1;1;5;7;29;15;95;155;339;65;751;2399;5615;2987;16769;57381;113021;41417];
[78173;1;3;1;9;15;17;1;111;197;7;417;3999;7261;5939;16773;29275;105559;84685];
[78174;1;3;3;13;19;31;103;1;37;269;1257;1397;4293;3019;6503;7727;93943;237313];
[78195;1;1;3;9;13;37;67;129;43;669;1331;1787;8185;323;18749;13737;86123;154131];
[78201;1;3;1;11;3;51;13;35;197;867;559;1381;1057;13293;20603;18633;50503;169685];
[78202;1;3;1;11;9;35;7;51;499;885;353;4095;6491;5917;15053;18363;99593;213089];
[78241;1;1;3;9;19;23;107;147;339;331;1349;2855;3721;13317;26457;783;93949;196051];
[78247;1;1;5;1;9;61;89;217;315;385;1729;2641;5753;6269;547;33737;20103;31533];
[78274;1;3;5;13;13;61;3;191;57;683;1227;1255;3651;10687;9049;6529;60783;28639];
[78276;1;1;7;11;25;41;79;19;383;363;1731;1597;1651;15037;22191;51883;41927;82419];
[78303;1;3;5;9;15;61;39;149;49;633;709;1743;621;14659;3309;64129;91897;74235];
[78307;1;3;7;15;5;59;7;197;111;885;1737;855;2807;3817;13759;29989;45105;171689];
[78328;1;1;3;9;21;25;55;67;483;437;303;703;6993;1971;4565;56117;6105;254517];
[78344;1;3;3;13;15;13;19;3;487;751;1185;2985;1619;7139;26087;21105;9049;236153];
[78362;1;1;5;7;15;55;51;231;85;953;713;659;2021;4271;15961;26873;31141;76635];
[78367;1;3;5;1;11;39;3;223;367;903;799;415;7247;9539;14479;37195;59951;181935];
[78368;1;1;5;3;13;47;17;159;439;859;1067;3111;5277;13973;21999;28381;115685;231483];
[78409;1;1;7;15;17;21;69;131;193;479;1075;3271;2057;1295;31235;35027;94145;65419];
[78412;1;3;3;5;5;21;5;81;113;259;837;831;5985;6717;12041;40355;50957;111185];
[78417;1;1;1;9;15;47;103;195;465;739;1415;225;3121;12623;7539;17555;36703;217641];
[78430;1;3;1;3;31;17;91;153;221;217;525;981;281;9869;9713;10669;12049;97615];
[78433;1;1;5;7;29;1;1;199;415;843;301;941;4589;13301;5833;41311;74019;78537];
[78440;1;1;5;11;13;5;41;127;213;917;1297;2281;3193;3877;9517;40685;14657;185139];
[78451;1;1;1;7;21;45;87;33;425;487;643;271;7087;5979;14795;27575;34541;173251];
[78453;1;3;7;5;21;11;7;169;325;905;973;2853;7929;8801;1005;60641;45973;81859];
[78458;1;3;3;1;1;35;39;81;93;463;697;2309;7769;5169;17595;41447;28837;52613];
[78467;1;1;7;1;1;23;37;17;137;873;1657;681;503;7887;24463;32453;112727;133347];
[78479;1;1;5;9;19;35;37;85;11;245;11;3;6475;5953;247;49447;32813;243841];
[78507;1;3;5;3;19;53;37;45;431;259;1831;1443;2237;7651;20701;22857;50041;119667];
[78518;1;1;7;1;5;37;113;69;389;369;1251;1989;7613;10669;4233;33379;72465;256861];
[78535;1;1;7;5;27;55;17;75;373;325;1981;1743;7341;319;28169;3587;66057;169723];
[78542;1;3;3;15;27;31;47;91;367;245;2045;979;2169;10935;29523;64871;119447;92131];
[78549;1;3;7;15;9;11;93;61;249;107;1883;2547;375;4195;6451;14533;62529;93557];
[78554;1;1;1;3;29;61;65;155;301;1017;131;1567;3649;3447;27943;52111;9133;88147];
[78556;1;1;1;1;21;59;107;151;265;707;767;2325;8095;14027;15355;15465;83143;116199];
[78583;1;3;1;15;23;51;31;25;439;357;1563;1091;2135;1327;18427;60965;29215;157351];
[78590;1;3;3;13;29;37;25;215;149;487;703;1787;3641;8301;8795;13845;95245;169793];
[78615;1;3;3;11;27;3;49;87;69;687;1181;3405;589;12901;14199;48607;74027;181379];
[78635;1;3;5;13;9;15;33;229;135;769;1005;2435;4831;5493;16745;64379;20253;52661];
[78649;1;1;1;13;9;61;33;127;339;15;945;219;4291;6995;29127;61853;40741;170541];
[78684;1;3;3;15;9;33;75;39;327;133;733;1125;2747;15031;24575;65013;41997;158679];
[78691;1;1;3;9;3;9;63;83;493;175;249;1977;8177;4067;2131;12467;86185;73417];
[78705;1;1;3;13;29;55;91;109;73;913;1343;2147;105;8763;7613;55749;4339;61253];
[78724;1;1;5;5;17;19;45;57;345;835;341;1365;5187;7485;22685;32321;67279;141119];
[78755;1;1;3;11;9;47;11;231;241;681;255;3663;5547;997;2445;64413;55349;61785];
[78770;1;3;5;5;23;29;23;249;149;1011;173;271;485;1239;81;59277;96669;210859];
[78772;1;3;3;1;17;9;41;39;309;131;1431;1497;1669;14191;22795;48951;101731;70847];
[78818;1;1;3;15;1;11;37;79;23;1023;585;127;7817;15009;3897;44601;83039;240457];
[78837;1;3;5;9;21;33;55;31;193;745;1741;3637;7265;8969;11797;33239;29123;126077];
[78844;1;3;3;13;31;5;87;215;271;573;1423;2611;947;14669;23785;60579;127099;55877];
[78849;1;3;1;13;5;53;103;85;237;457;739;1201;133;8589;13471;6707;42257;141989];
[78909;1;1;1;5;23;3;65;159;445;823;341;1723;6263;9421;16023;19145;52337;229397];
[78915;1;3;5;3;15;3;15;251;407;137;951;1319;1035;7713;29579;19591;77841;84949];
[78941;1;1;7;15;19;25;63;141;511;11;1027;1209;6627;8127;14879;12965;109973;144501];
[78958;1;1;1;3;11;57;65;169;453;197;1249;2933;3743;1971;19373;32109;73265;46185];
[78975;1;1;3;1;3;1;21;47;471;565;1795;1771;3187;7189;18627;22993;112319;158693];
[78979;1;1;5;7;5;25;127;113;31;609;1273;2799;5713;16091;22239;43617;126003;218991];
[78986;1;3;3;7;19;59;19;185;483;431;335;565;819;2555;18653;36573;50085;31007];
[79029;1;1;3;13;17;61;5;219;297;755;2005;391;4927;1517;11341;9527;51739;182599];
[79030;1;3;7;9;9;3;39;211;475;717;189;819;529;469;28559;7321;60213;79505];
[79044;1;3;1;9;17;39;53;65;247;145;9;1669;7221;8359;11021;29775;24693;208655];
[79048;1;1;5;13;7;7;31;135;375;439;1419;3579;4313;14057;31505;55249;5345;69537];
[79056;1;3;5;9;21;3;125;223;9;73;1693;281;3941;10377;29365;19807;73973;169113];
[79095;1;3;7;15;29;41;119;75;241;79;1969;1091;6241;10685;11579;3791;124443;5051];
[79099;1;3;7;15;23;53;13;255;205;547;255;1589;7261;15735;14521;29679;109373;236433];
[79121;1;3;7;3;17;37;71;163;95;265;1;3239;1779;9047;31387;32291;86741;55317];
[79150;1;3;1;9;31;55;117;247;317;673;749;1155;7743;6427;25273;49701;62345;20913];
[79196;1;3;3;7;27;55;35;111;69;799;213;3011;4359;14763;7387;13281;58397;38415];
[79199;1;1;5;9;5;61;49;219;419;297;1019;2181;6069;12957;24637;23317;6389;240893];
[79220;1;1;5;15;13;57;59;43;373;647;1407;3955;5583;15229;20935;38007;65971;95987];
[79229;1;1;7;7;23;17;77;91;449;75;1059;3337;2041;261;25077;28161;44537;189443];
[79263;1;1;7;11;9;7;117;225;457;941;161;1825;1101;193;32619;37245;102633;86707];
[79264;1;1;1;7;13;43;33;137;275;691;1387;1265;759;1457;4877;41813;4159;234397];
[79296;1;3;3;1;9;23;71;39;205;175;953;2965;3283;6025;5905;34691;120987;71841];
[79302;1;3;1;13;31;63;49;73;299;169;1265;2205;1299;10045;6919;26067;56909;42549];
[79354;1;3;3;1;31;41;75;219;457;407;5;1901;6823;531;3155;64375;38523;68217];
[79387;1;1;7;9;7;35;123;193;145;1021;757;3775;2313;11885;11649;61071;129363;120467];
[79399;1;3;7;3;29;21;127;93;415;641;453;923;7713;9569;5961;25969;31095;93317];
[79435;1;3;3;1;5;15;21;235;211;663;385;2429;319;11571;17539;42975;43179;100105];
[79525;1;3;7;7;25;57;51;215;393;167;1569;3235;5555;3391;2389;36485;21919;164479];
[79540;1;3;3;3;29;21;81;59;239;671;605;583;2341;2321;28593;19035;10209;36433];
[79552;1;3;3;11;31;33;1;147;111;523;427;3545;111;8009;29101;34549;122745;82117];
[79562;1;3;5;15;19;37;97;141;387;523;467;1657;4161;5505;18091;39597;124423;74827];
[79576;1;1;1;11;21;63;61;13;169;851;1863;3307;7189;10791;22619;24431;127781;14717];
[79579;1;1;3;13;27;41;69;127;497;565;1489;277;2551;15409;9885;187;101319;194121];
[79605;1;1;7;7;17;45;1;139;347;503;1189;1459;6117;14319;22153;2915;91991;246679];
[79618;1;3;3;3;9;41;25;199;327;295;945;2765;563;11605;24267;37729;80057;169479];
[79648;1;1;7;3;23;19;13;219;235;837;1015;2071;2727;3989;32539;26713;112391;163943];
[79654;1;3;3;9;21;27;17;187;315;753;817;3053;5961;973;23973;37621;105637;247711];
[79666;1;1;7;1;11;15;45;25;421;213;663;3829;469;15889;28773;14323;107705;111729];
[79686;1;1;1;7;7;7;51;189;457;95;1903;639;1933;7409;22327;18959;42679;158987];
[79697;1;1;5;9;13;13;49;159;387;365;1799;2399;6375;14965;32495;5383;73479;5653];
[79700;1;1;3;1;29;23;81;73;183;563;435;133;5731;6663;21219;60007;101215;68775];
[79723;1;1;7;11;31;47;43;159;221;745;1317;2405;4563;4073;27675;14225;114231;222553];
[79749;1;1;1;5;11;63;105;99;413;81;771;547;1633;8097;30431;31417;101379;163575];
[79750;1;1;3;9;23;29;123;149;241;267;1925;467;7743;4473;12223;10521;86265;89949];
[79764;1;3;5;1;31;29;111;67;311;851;1919;2563;3725;4035;7241;13859;105207;200599];
[79771;1;3;7;3;19;53;113;107;133;243;2021;2669;4633;14393;24827;1233;81471;20105];
[79774;1;1;1;5;3;23;43;149;157;875;1175;963;6189;7343;13913;41375;112857;236047];
[79780;1;3;5;15;11;31;43;225;469;229;703;3033;2341;10309;12057;13325;109019;130789];
[79789;1;1;1;7;27;47;45;49;371;971;1121;2179;1267;9499;10771;28781;77059;90765];
[79798;1;1;7;1;17;27;59;169;269;217;983;1365;1985;12287;5385;46407;24827;155761];
[79821;1;1;7;11;9;5;19;205;159;937;763;3823;3625;14209;32031;58879;118449;50723];
[79850;1;1;5;3;25;55;27;35;125;999;1541;3883;539;5691;18071;63199;112089;194825];
[79864;1;3;3;1;27;43;57;225;173;673;1339;3433;5743;1375;32429;35071;98035;229973];
[79898;1;3;3;9;3;51;5;203;439;41;529;863;6735;13211;7075;55637;24481;46673];
[79904;1;1;5;11;15;23;93;7;181;843;777;1299;1941;7147;26253;10967;5387;84611];
[79934;1;3;1;7;9;57;127;155;257;423;1421;261;4477;11169;22997;12371;8705;135883];
[79936;1;3;1;9;17;9;15;209;427;889;1939;3623;2587;4037;32233;40391;32529;63851];
[79942;1;3;3;13;3;19;49;155;213;239;817;1787;2999;9955;20155;44711;41367;59623];
[79945;1;3;7;5;5;39;103;181;405;85;1997;3639;1259;10737;189;44377;23589;89371];
[79963;1;3;5;11;15;13;57;81;203;773;1571;3235;6625;13803;2091;64265;131013;189705];
[79987;1;1;1;13;15;3;113;159;149;55;355;2345;5043;4067;23277;32647;43755;5445];
[80057;1;3;3;9;31;7;67;177;423;269;1731;3957;4383;13483;14653;8243;57689;37375];
[80077;1;1;3;5;25;5;77;199;161;859;497;1679;6809;4877;1107;16443;15505;138155];
[80078;1;3;5;1;11;57;7;49;145;569;571;2679;7531;14517;12425;6285;116961;116397];
[80080;1;1;7;11;1;37;65;43;151;419;801;3231;5321;10725;12885;62771;16507;179009];
[80102;1;1;5;11;29;55;89;81;325;47;1037;3235;2017;10875;8919;25115;118035;178227];
[80106;1;3;1;7;1;43;101;25;449;617;381;3437;6655;1291;18693;53939;99143;195695];
[80111;1;3;1;5;23;7;47;159;295;939;173;3087;1497;6353;13893;13465;118973;193737];
[80152;1;1;3;9;3;41;65;79;449;345;2039;1193;5915;13689;1257;23273;48515;256793];
[80155;1;3;5;11;11;55;13;117;343;899;1853;373;6885;12863;1209;34433;48215;218187];
[80173;1;3;7;7;3;45;103;145;55;507;743;4027;2075;15707;4473;50077;64551;204305];
[80186;1;1;3;5;31;45;123;233;363;1003;411;1459;6455;985;29451;17625;44153;137097];
[80203;1;3;3;1;27;11;53;251;41;43;495;107;6145;8785;28997;7181;92903;105785];
[80223;1;1;3;11;13;5;117;141;463;639;1857;2873;3627;6081;18207;29451;80909;73557];
[80233;1;1;1;3;29;51;15;81;85;487;307;2481;2769;14901;9407;58321;52813;230393];
[80258;1;3;3;11;31;7;107;43;205;811;1121;2757;2447;6843;21347;9143;41003;80507];
[80281;1;1;1;1;29;19;13;203;47;689;2003;1477;7857;5031;21781;5745;3649;160389];
[80318;1;3;3;7;21;21;65;3;351;157;167;3425;2395;9165;26143;57221;127171;54461];
[80326;1;3;1;15;13;13;65;53;305;719;181;709;5485;13385;30287;52669;82647;83851];
[80330;1;1;3;11;11;23;31;109;205;123;509;3831;7771;7341;31613;28035;38061;49375];
[80337;1;3;3;3;15;33;47;159;321;589;393;3253;3743;6161;445;33129;8181;27793];
[80344;1;1;1;13;9;57;111;253;203;539;673;855;1937;2699;25795;6889;13531;63561];
[80365;1;1;1;13;31;45;13;101;113;903;1699;2423;7967;7957;20303;64395;124447;33947];
[80383;1;3;5;11;17;39;59;181;421;535;1445;3927;5433;12885;12497;47231;39819;46371];
[80389;1;3;5;7;27;3;75;49;461;781;433;1767;6903;11907;2063;55199;82823;229405];
[80413;1;3;3;15;17;61;17;23;247;683;33;4027;341;8069;2529;9757;95653;12927];
[80441;1;3;3;11;17;7;29;205;353;917;219;3509;7803;5939;25111;45357;9259;1549];
[80449;1;3;3;15;21;7;23;25;459;291;31;2091;1177;9311;12231;16617;33575;252643];
[80461;1;3;5;5;3;51;113;123;453;503;1575;2785;5011;1789;819;30857;12955;172421];
[80467;1;1;5;3;15;15;125;65;113;281;53;3417;5279;6351;25931;54835;124077;204241];
[80476;1;1;3;9;29;31;19;179;275;933;711;3351;6221;1711;9375;11645;118911;249395];
[80507;1;3;7;13;23;59;43;61;85;267;691;3949;2135;3203;21455;61895;71157;136739];
[80516;1;1;7;5;19;27;69;141;9;633;95;3789;7823;12635;27661;30285;129469;67163];
[80519;1;3;3;9;11;25;103;47;425;809;1279;411;219;6703;24145;17303;56835;84879];
[80568;1;1;5;13;29;41;47;133;197;615;169;2157;1795;4945;31693;57763;39369;83353];
[80571;1;3;1;3;27;23;23;213;387;239;977;221;383;11005;7221;8795;100963;163777];
[80579;1;1;1;1;31;29;87;93;239;399;801;3143;6973;16331;16865;1823;1127;41983];
[80586;1;1;3;13;7;39;25;251;277;417;119;3033;6785;9783;1641;60169;25047;182263];
[80599;1;1;5;5;7;35;17;47;295;861;1671;1971;4583;3925;31013;50039;125191;143019];
[80610;1;1;5;1;3;57;11;23;273;209;617;1499;665;1193;7539;1625;48065;82843];
[80629;1;1;3;15;15;17;39;145;193;503;1305;2071;93;11529;14267;14779;49327;51347];
[80642;1;3;5;3;7;39;63;171;263;493;383;3209;4277;6259;1345;48013;110571;127865];
[80690;1;3;1;7;15;29;93;75;37;235;1095;153;745;9785;28831;58899;67091;34743];
[80713;1;3;7;9;27;23;67;85;491;447;1899;709;555;13979;12529;38383;16091;117301];
[80716;1;1;5;3;9;55;109;173;29;19;1265;2391;7761;1953;5643;24079;14187;127017];
[80737;1;3;7;13;21;57;105;145;73;421;403;5;3523;7005;1109;63357;111671;191857];
[80743;1;1;7;13;5;27;21;5;199;515;917;365;2775;12453;26989;60593;98977;161759];
[80750;1;3;1;13;15;37;71;65;27;533;1311;2981;1945;7183;5337;20659;67355;185633];
[80786;1;1;5;7;21;39;21;195;443;979;1033;1823;3045;3023;31783;61803;1023;119291];
[80811;1;1;3;11;5;15;107;155;465;249;1845;357;2769;3313;12335;16615;20809;103469];
[80834;1;1;3;9;13;21;11;227;173;949;1255;3257;601;10865;12779;9173;87255;12867];
[80839;1;3;3;15;3;41;97;141;385;23;1253;2905;1523;7647;7069;61143;101245;59747];
[80840;1;3;1;3;7;35;117;93;357;741;1673;3295;6809;547;22949;42151;91241;16189];
[80846;1;3;5;9;25;31;27;221;55;595;1513;3963;3143;1189;19843;6361;19575;231765];
[80848;1;1;5;1;3;35;91;217;385;717;57;1471;3529;859;15259;4411;54491;79841];
[80876;1;1;5;9;29;47;111;89;469;975;513;1339;1747;8839;30375;46217;128191;95831];
[80911;1;1;5;13;9;45;3;221;223;461;1353;3953;5505;3139;3407;12953;74487;209401];
[80947;1;1;7;7;7;43;33;143;427;183;573;2881;7355;10693;12841;14267;61847;47689];
[81001;1;1;3;5;23;45;53;173;347;715;173;3385;429;8143;2831;57883;77245;37613];
[81031;1;1;1;13;21;47;33;157;171;47;1981;2003;7401;7687;10553;38083;111901;30251];
[81045;1;1;5;9;23;35;121;251;7;835;1561;1605;7023;15645;14313;6361;107973;211667];
[81056;1;3;1;13;25;39;81;31;145;483;1587;3457;5293;927;3529;22457;69689;190371];
[81073;1;1;1;3;25;61;87;111;441;829;313;2271;205;10187;3003;47237;99899;200553];
[81083;1;1;7;13;31;51;9;243;219;139;1703;2001;959;11265;27897;9081;4473;107737];
[81145;1;3;5;1;25;37;61;131;487;35;1293;833;3847;11315;11811;2763;2199;81127];
[81168;1;3;7;7;31;33;87;111;429;809;173;1093;7719;14307;5735;61019;21223;26361];
[81177;1;1;3;11;17;33;31;17;49;885;1279;2243;3693;61;30909;35807;14027;159225];
[81207;1;3;7;11;9;35;61;75;171;117;1285;935;7271;3509;14119;31065;58181;136623];
[81208;1;1;3;15;3;43;93;221;239;783;37;4007;3637;10461;18425;59629;93781;252689];
[81226;1;3;5;7;5;61;19;107;123;417;1655;2307;8177;13617;17195;31597;66241;107199];
[81245;1;3;7;7;5;5;25;69;383;217;993;2719;3425;8395;1125;10763;80111;70421];
[81269;1;1;3;9;29;45;123;45;89;1015;1703;4049;4969;3801;23657;41031;66415;34063];
[81285;1;1;3;3;7;53;125;63;67;335;1937;1793;4641;7115;10951;45503;54723;177433];
[81289;1;3;5;1;21;55;83;199;509;331;695;2133;1881;14369;21687;2343;85895;99255];
[81292;1;1;5;9;11;5;111;97;433;851;1537;411;6629;5185;30749;50017;46177;213347];
[81298;1;3;3;1;7;21;95;229;311;605;1277;2435;5053;3051;15447;35479;2835;204149];
[81310;1;3;5;9;31;27;79;201;329;735;1933;27;6201;9375;24801;34045;16227;61013];
[81346;1;1;5;5;31;7;73;197;455;835;1845;2733;3371;513;10495;43659;4621;68969];
[81348;1;1;1;15;21;55;15;83;419;471;1427;919;7125;7635;25579;19493;37381;191563];
[81355;1;1;7;3;15;35;25;73;295;507;719;3307;4253;945;21005;24903;80287;48885];
[81388;1;3;7;15;27;13;71;79;189;491;1185;3007;4285;13005;18973;33759;15327;45595];
[81396;1;3;3;9;9;33;115;103;31;949;1817;2865;1215;9611;16019;7925;72945;208301];
[81415;1;1;1;5;19;35;89;181;409;641;1277;2201;2825;5707;13463;34741;39303;217803];
[81460;1;1;3;11;13;31;65;191;11;179;509;2513;3861;13323;11817;24901;53815;44343];
[81482;1;3;1;5;5;57;97;25;83;177;1963;2367;6703;13361;8749;45533;87883;2977];
[81518;1;3;5;3;15;41;113;145;39;509;81;1387;2881;1441;75;28409;61417;79393];
[81523;1;3;3;3;17;1;41;19;173;133;2033;3637;7415;1841;19497;42643;122885;195301];
[81529;1;3;3;9;15;37;11;87;291;881;1471;2469;6877;6813;8273;1455;30957;181887];
[81545;1;3;5;9;25;41;7;71;451;831;495;3991;4173;4307;31249;7253;57141;35495];
[81570;1;1;7;9;15;39;29;193;327;837;991;3503;1175;14965;18151;22479;51127;159019];
[81576;1;3;1;9;23;41;89;211;179;507;1005;613;8083;15655;1927;23401;51025;21589];
[81604;1;1;5;15;5;63;105;229;239;399;591;2233;391;2871;29829;49961;62045;190437];
[81613;1;3;5;9;7;23;85;219;163;37;1881;589;4239;12845;19993;57267;29519;207597];
[81631;1;3;7;15;19;19;115;141;41;405;657;2517;4231;10247;21383;11479;52955;121545];
[81656;1;3;1;7;23;33;65;229;287;739;1265;1105;487;3801;5211;44731;5359;103685];
[81679;1;3;1;13;23;29;101;153;395;335;899;303;2073;15767;1303;15539;12889;35517];
[81684;1;1;5;11;5;63;41;53;99;339;563;2921;4959;13941;13655;10115;56867;42919];
[81698;1;3;5;5;5;35;127;225;497;27;139;3269;3929;3369;22697;19421;2921;171927];
[81736;1;1;1;15;15;21;35;251;67;447;1045;1173;2951;6589;27261;36597;98721;7205];
[81747;1;3;3;9;11;63;83;19;163;381;87;1211;3007;4971;27105;2341;21389;32995];
[81765;1;1;3;3;21;19;63;65;505;987;1821;2419;3195;2573;1481;35279;45135;597];
[81775;1;3;1;15;29;5;77;65;121;223;2009;593;7929;10353;22301;25137;40289;95847];
[81805;1;1;3;1;17;49;9;167;69;729;1189;1191;1;12603;8281;45193;1427;15887];
[81842;1;1;3;7;17;5;11;217;505;317;505;1201;8025;13255;12591;16207;32387;242425];
[81859;1;3;7;9;25;9;97;23;91;765;653;2689;2787;11719;8455;24665;26907;78525];
[81865;1;3;3;15;27;19;79;157;117;715;1921;2453;499;13593;14173;1993;110087;151427];
[81866;1;3;1;13;5;43;59;21;451;863;533;1723;2059;1611;10403;36479;36999;109553];
[81892;1;3;7;7;29;63;51;5;475;549;123;1949;5279;8581;20053;52287;125223;152299];
[81902;1;3;1;1;7;19;1;215;273;157;1557;425;7549;12337;1735;30917;116487;177335];
[81933;1;1;1;1;7;47;61;191;73;551;1435;2283;3191;8545;11875;41389;17607;26869];
[81934;1;1;7;9;13;61;109;121;365;223;1729;3311;7249;10765;12419;4235;64127;132257];
[81942;1;1;3;13;17;25;65;49;417;311;141;1127;53;945;28277;33347;96399;166049];
[81969;1;3;7;9;5;21;93;203;467;805;115;1757;4535;8687;10423;8065;2955;20403];
[81981;1;3;3;15;7;63;103;137;227;111;735;2139;4293;5347;4131;63405;42599;173299];
[81999;1;3;7;7;17;53;127;251;57;625;843;3045;1319;10085;18591;36115;104193;183891];
[82004;1;3;7;1;31;57;107;253;207;739;1703;1377;3807;10289;22969;13087;2805;261279];
[82008;1;1;5;5;5;59;59;63;77;663;1109;2159;3725;12355;4805;22433;81851;9419];
[82032;1;1;7;15;1;1;101;101;295;311;447;3931;933;15713;8919;7185;38577;254203];
[82035;1;1;5;15;7;35;35;141;283;665;1685;3875;495;1655;8269;23493;1523;248783];
[82060;1;1;5;9;27;35;25;57;285;469;1491;1479;3705;11357;5319;11575;116207;215961];
[82063;1;3;5;11;7;41;67;161;73;777;247;823;6677;1631;3431;2821;25291;17633];
[82071;1;1;3;9;19;17;45;181;139;85;857;1231;7167;2951;26847;39113;51705;104617];
[82081;1;3;5;1;5;55;101;209;1;47;1059;2175;1549;8007;11267;21863;125567;102775];
[82082;1;3;3;15;15;21;79;85;427;963;1335;2129;6831;6613;13319;15781;3781;222547];
[82105;1;3;3;13;19;63;25;123;1;215;139;1345;5035;3107;14381;6239;18481;202581];
[82106;1;1;5;1;11;11;11;53;109;533;1113;177;609;15391;22735;62229;103591;89143];
[82120;1;1;5;15;3;21;115;223;167;441;277;2971;933;2841;26893;48513;74553;250413];
[82125;1;1;1;7;19;17;43;181;483;897;819;1657;5539;8847;23483;57605;104703;242559];
[82156;1;3;5;11;3;63;3;129;45;981;45;845;1481;14735;30451;16937;13789;27107];
[82176;1;3;3;15;25;11;33;49;155;947;521;3417;3299;1123;9517;32127;117795;223167];
[82203;1;3;5;15;3;35;27;37;287;541;727;2779;7033;5189;21579;36895;109645;123353];
[82210;1;3;7;9;15;53;123;125;405;841;119;63;853;8693;1537;25509;49345;54301];
[82241;1;3;7;9;11;63;65;145;283;529;1553;883;3319;8601;29379;26991;127343;98701];
[82287;1;1;1;7;23;59;11;89;407;869;445;659;3029;5465;5063;36775;69089;205367];
[82323;1;3;7;5;19;35;99;49;257;287;1113;2825;2797;7283;31757;47015;106987;82589];
[82330;1;3;7;11;15;37;41;101;493;725;1091;503;2611;13025;11071;39311;5193;92127];
[82366;1;1;3;7;9;59;69;113;381;341;1495;3169;5099;69;7911;9721;84609;254171];
[82378;1;3;5;7;21;19;75;71;7;617;1185;2787;4147;16045;18859;52347;66551;161563];
[82395;1;3;5;3;27;39;17;205;425;3;1443;1947;7645;10125;24577;45373;38015;30407];
[82398;1;3;3;11;1;57;105;251;65;389;1993;3933;3093;1425;9483;5953;13147;234121];
[82401;1;3;3;3;1;27;105;45;435;393;609;291;545;4905;22621;62115;78955;84355];
[82404;1;3;7;9;1;15;91;183;301;223;1183;1877;2141;5549;371;44147;6771;136777];
[82419;1;1;5;15;5;49;127;161;121;979;1247;3681;3805;3363;11643;25735;21193;111657];
[82421;1;3;5;15;15;33;47;91;137;323;1577;3723;3609;11533;4415;26467;120947;200919];
[82428;1;3;3;3;3;33;121;161;453;205;1815;65;5893;4669;14377;10905;9559;56359];
[82442;1;1;1;7;1;55;21;143;411;65;1009;2989;133;7059;30981;15417;2651;110345];
[82452;1;1;3;7;19;25;91;241;193;903;661;665;7681;14111;29197;51299;109519;155827];
[82455;1;1;1;15;25;3;79;57;417;73;705;7;4415;7699;28185;53005;88547;7281];
[82466;1;1;7;13;27;21;35;197;65;171;1773;393;3759;8335;5987;20611;91373;80715];
[82510;1;3;7;3;17;51;85;229;131;733;281;3157;1283;10751;20203;49955;23861;128517];
[82524;1;1;5;15;3;27;35;87;391;509;1627;769;701;4933;24597;9695;111441;198493];
[82545;1;1;1;15;3;31;73;235;341;263;883;2369;4887;4659;9493;6763;130625;15031];
[82555;1;3;1;15;1;11;63;79;389;355;619;1361;313;1199;555;42213;81089;170863];
[82581;1;3;1;15;21;27;1;179;19;241;1655;1803;5413;5353;65;31211;3501;27205];
[82588;1;3;3;9;9;19;63;191;217;271;1453;2777;2915;13291;31391;37489;86435;22857];
[82591;1;3;5;9;13;41;85;11;333;479;363;2591;697;8587;3647;5741;21627;244573];
[82636;1;1;3;1;5;61;83;229;193;977;677;2585;3273;12035;2621;12943;49293;37985];
[82658;1;1;5;7;27;9;69;189;489;747;519;719;1493;13337;14933;44359;11471;57245];
[82675;1;3;5;1;5;17;75;89;417;367;57;1641;1573;1819;31237;5213;78821;149853];
[82678;1;1;7;3;7;17;121;91;211;101;1145;3753;2997;67;10755;11261;122489;61679];
[82716;1;3;7;7;15;17;73;133;429;285;201;1917;5677;1793;21653;49729;68965;5347];
[82725;1;3;3;13;23;17;49;249;71;169;619;843;2163;585;23309;39509;68087;232233];
[82743;1;1;7;15;23;15;19;227;89;719;1247;2521;1509;7553;12225;12865;100107;261847];
[82744;1;1;5;3;23;17;117;5;401;57;1945;1081;1269;5921;31815;42341;112099;130047];
[82762;1;1;1;1;9;5;87;203;211;1009;403;1617;3969;2541;7261;6989;16579;206159];
[82770;1;3;7;9;5;13;93;191;79;631;1019;3639;7137;13859;19603;63263;82947;181023];
[82809;1;1;5;11;25;17;85;51;61;311;517;2001;6325;6831;10835;20101;115241;15815];
[82846;1;3;7;13;29;19;33;115;473;477;471;773;4097;11697;30781;20843;27089;181927];
[82855;1;3;5;5;21;27;3;239;45;335;505;149;3005;3511;18037;31291;6145;2913];
[82882;1;1;3;1;25;49;21;225;27;395;415;1813;5727;7211;9887;63533;99185;119269];
[82899;1;3;3;5;15;53;127;195;81;895;587;561;5951;9901;18117;37855;19393;259031];
[82905;1;1;7;13;9;49;109;127;53;735;391;1523;3759;10363;11299;3203;89121;122643];
[82950;1;1;5;3;13;3;21;247;259;557;977;1465;6889;3879;4627;1439;122809;248941];
[82953;1;3;7;15;7;19;113;251;245;63;267;1873;6601;16253;24643;7433;130051;233047];
[82967;1;1;3;9;29;39;47;31;493;817;1697;2139;1059;11365;31653;56477;119191;45509];
[82971;1;1;1;15;9;29;99;61;109;341;1009;1551;897;13075;10603;25153;65911;228213];
[82987;1;3;7;7;29;47;57;85;263;767;1633;2473;199;49;22287;33345;118877;248435];
[83007;1;3;1;9;5;45;5;179;9;129;1231;4075;7497;2159;18101;31039;95213;171913];
[83009;1;1;1;13;23;1;89;63;21;983;481;773;5957;4823;4483;50405;42979;243567];
[83012;1;1;5;13;15;21;65;133;347;511;1887;743;7825;1681;4857;49247;21277;212995];
[83030;1;3;7;9;7;51;3;233;287;727;815;3609;397;5721;16473;7549;100455;136233];
[83045;1;3;1;1;31;51;59;37;79;623;1219;2655;4619;11967;11377;28985;16069;188773];
[83050;1;3;3;13;13;59;93;159;197;339;1633;1601;255;1631;4989;12019;23921;261273];
[83052;1;1;3;13;27;25;55;43;147;981;65;725;5753;115;26125;25501;89099;233419];
[83070;1;3;7;5;25;3;95;135;191;417;929;3855;5829;3827;13979;65367;63683;85911];
[83076;1;3;5;1;7;63;45;187;355;735;1325;1461;3869;2127;18231;45891;24027;202997];
[83086;1;3;7;13;19;47;89;229;253;659;355;3323;4081;8243;32553;46579;46431;53291];
[83128;1;1;5;11;3;61;33;65;239;779;665;1337;6427;12787;1495;27105;71455;89715];
[83141;1;3;1;11;31;33;115;69;511;187;99;1055;1065;9531;29897;23897;80581;166957];
[83153;1;1;7;13;19;1;13;241;89;761;425;3865;961;14999;24175;19103;39095;38899];
[83156;1;3;7;7;11;17;25;217;113;615;1455;1409;5679;2321;28687;8089;74031;230559];
[83194;1;3;7;1;25;15;77;111;405;523;961;647;3857;14355;27063;48829;87913;254965];
[83225;1;1;3;3;5;13;67;155;393;943;1875;1209;3765;8627;15123;43405;78473;146127];
[83261;1;1;3;7;29;43;23;33;35;883;1859;1559;4163;13277;16971;15289;60305;56743];
[83264;1;1;1;5;19;55;37;53;123;35;1477;1035;4683;259;20079;37041;48081;198685];
[83322;1;1;3;3;1;19;27;129;427;685;959;2501;2761;9495;23649;18789;54521;219547];
[83382;1;1;7;1;31;11;65;171;229;11;1825;1641;2731;11085;2567;30831;20365;242731];
[83391;1;1;1;13;13;5;21;175;265;271;133;407;3415;5943;15385;12817;106159;41859];
[83399;1;3;7;1;11;45;105;229;395;877;1495;2113;1733;10117;1125;9989;109637;124517];
[83406;1;1;7;3;27;43;57;77;63;907;1137;3333;189;15285;13895;23773;73523;47811];
[83427;1;3;3;11;17;19;81;197;73;897;515;3801;5105;6987;10125;7239;32339;124411];
[83439;1;3;1;9;11;15;99;109;307;133;249;1463;5479;8565;19489;13773;11443;149799];
[83444;1;3;7;7;19;53;61;75;83;545;1449;683;5845;8325;18111;35941;51843;97907];
[83453;1;1;1;3;31;23;37;187;207;51;439;3095;2217;6393;9117;2779;47331;118275];
[83457;1;1;3;9;23;17;41;37;59;281;319;1333;6207;2265;4445;50831;115893;120491];
[83475;1;3;1;13;27;23;25;23;187;51;1257;379;921;3801;24537;59547;34191;184625];
[83484;1;1;5;3;23;21;23;159;163;537;1589;2797;8007;6767;31331;20741;119969;174135];
[83488;1;3;1;1;13;35;73;147;491;317;69;1069;5413;13973;19741;44717;63263;77145];
[83493;1;3;1;15;31;41;23;79;55;863;129;2229;3395;1621;6273;44521;100047;42337];
[83512;1;3;7;3;7;5;79;1;191;227;1039;2909;1085;3173;29311;13861;124785;212453];
[83525;1;3;1;5;13;9;99;213;61;201;889;1171;3981;2091;31679;26643;5611;154339];
[83535;1;3;3;7;27;49;53;77;285;441;1669;2157;223;1899;2725;36547;39273;206653];
[83560;1;3;3;9;29;5;91;1;13;409;1275;891;6557;5157;6481;57381;87683;117277];
[83617;1;3;3;1;11;7;13;69;9;1015;907;2685;6665;16307;24567;13191;9567;55073];
[83664;1;3;1;5;19;15;65;13;503;427;1947;1869;5857;823;20533;25337;83551;128505];
[83676;1;1;5;11;25;53;83;175;445;5;841;2773;4381;2829;1927;63689;63643;246629];
[83757;1;3;1;11;27;63;43;95;453;235;673;117;6617;7589;5767;16465;36961;39395];
[83770;1;1;3;13;3;27;119;87;209;167;721;1499;1955;9151;11649;29009;25249;26125];
[83775;1;1;5;1;9;59;47;57;81;243;485;559;7311;15119;9827;47219;5941;16909];
[83835;1;3;7;11;29;13;97;63;289;653;1811;835;801;13103;9333;7785;111587;10021];
[83838;1;3;3;1;27;61;73;165;279;239;865;517;7763;1917;9839;20725;50721;171351];
[83848;1;3;7;1;27;29;43;137;353;927;889;2511;709;3309;967;18119;48099;98139];
[83856;1;3;1;1;17;5;79;23;367;231;605;3809;7557;14283;18417;15775;107421;9587];
[83878;1;1;1;7;25;9;93;41;165;509;661;2165;3595;2555;11399;2403;76179;176003];
[83884;1;3;3;7;27;19;55;213;83;601;377;2381;6831;5609;31321;26897;105321;144705];
[83896;1;3;7;7;21;11;45;55;379;133;653;3593;7481;15789;12723;9697;20073;58211];
[83902;1;3;5;1;1;57;89;159;461;719;1251;3899;1063;10753;6509;28391;129377;195279];
[83922;1;3;7;7;5;39;59;81;27;169;1541;2213;3631;11601;13153;43221;14587;29719];
[83977;1;1;1;1;3;29;103;125;35;455;255;3855;567;12013;13285;44753;117415;226285];
[83985;1;1;5;1;21;41;59;69;83;813;1041;2559;1947;7343;5291;39281;56141;54487];
[83988;1;1;7;15;25;17;83;115;321;659;1625;3253;281;6673;26301;45647;92151;150707];
[84034;1;1;5;15;9;19;83;167;325;869;501;483;2155;14697;12755;54687;100637;6791];
[84046;1;1;7;3;3;47;91;79;347;215;847;2957;5881;5371;20099;45603;29349;175357];
[84058;1;3;1;3;13;43;101;235;505;289;691;673;5579;8721;9639;18569;44797;250887];
[84069;1;1;3;11;23;27;85;223;365;767;577;2781;4179;12963;25235;51021;84989;149521];
[84107;1;1;1;1;9;51;13;129;393;725;1301;1391;4693;4979;16801;21361;122157;56675];
[84155;1;3;5;11;7;21;97;97;17;915;255;155;3961;7999;7493;52683;49377;131663];
[84157;1;3;5;15;31;23;41;187;89;933;309;2519;6595;13785;14339;44393;64439;142105];
[84160;1;1;1;11;13;57;29;249;467;863;77;3185;6221;13109;32397;13859;27331;35295];
[84165;1;3;3;3;23;31;29;189;405;855;1597;3167;4171;13801;12297;38019;130141;135517];
[84187;1;1;5;7;13;37;87;41;503;281;103;1997;3603;4185;25331;55123;74263;248695];
[84214;1;3;1;15;13;57;67;135;429;489;829;2069;7657;15713;3907;5819;114005;187859];
[84226;1;1;3;1;23;43;93;63;5;435;1649;1429;2923;9035;28667;13991;74491;236225];
[84235;1;3;3;7;19;29;37;143;443;955;1431;3193;6023;2421;28955;29171;126785;124709];
[84240;1;3;7;7;23;45;59;101;25;711;1685;851;3101;12273;10775;57633;52739;244681];
[84255;1;1;1;5;3;13;97;143;367;139;1535;873;8005;2795;11103;3837;125833;194903];
[84273;1;3;5;7;23;61;61;203;443;543;573;2835;941;12315;18453;34367;94359;132437];
[84291;1;1;7;5;11;21;87;27;495;67;1267;2029;5041;4133;18821;50249;52397;101431];
[84311;1;3;3;3;13;51;89;183;61;919;1841;373;7091;9413;1227;44515;72869;198769];
[84317;1;3;3;11;13;63;13;253;203;571;91;3477;123;15353;7803;62729;14337;252725];
[84328;1;1;7;1;11;57;45;251;351;895;1813;3857;7545;9739;32029;24915;46261;8149];
[84346;1;3;1;15;25;41;71;47;265;567;307;4079;1943;10407;2999;6605;97621;194711];
[84357;1;1;3;5;17;29;97;249;449;761;1727;1533;7417;16167;421;39075;1029;180923];
[84361;1;1;1;3;11;27;67;227;131;453;951;3897;515;4513;17361;50049;4533;35953];
[84372;1;1;1;13;7;53;25;163;453;195;1115;1019;3799;7489;12419;15141;112001;106459];
[84388;1;1;3;9;27;15;63;109;293;867;645;1821;2867;9653;32617;39617;125589;249169];
[84415;1;1;7;5;19;17;15;105;65;143;961;493;7301;11299;4549;49873;82447;107];
[84438;1;1;7;1;31;21;19;61;255;815;421;3097;4993;9709;11529;53839;32653;137861];
[84444;1;3;1;9;5;5;59;179;115;101;407;1143;309;843;31143;60639;126659;111695];
[84447;1;3;7;13;7;47;65;127;159;817;1029;2983;5443;11087;10595;47143;128353;195189];
[84451;1;3;7;1;27;21;61;235;433;929;581;1925;8185;6037;28859;16843;43499;217091];
[84465;1;3;7;11;1;11;81;187;227;967;25;2285;1251;10743;2321;29029;89739;188023];
[84471;1;3;5;11;21;25;57;201;89;965;1593;2879;2469;13675;28789;11407;13109;52749];
[84496;1;3;3;3;19;25;87;3;127;881;645;207;1129;4235;1533;52503;128733;238679];
[84554;1;3;3;1;5;5;63;181;493;457;1529;1795;219;10807;26713;49673;47167;103595];
[84561;1;1;3;3;1;31;65;79;473;257;1477;387;2843;4031;8459;44849;115157;8417];
[84571;1;3;3;5;15;1;105;67;343;333;1961;649;5105;11387;27437;35471;26295;220309];
[84580;1;3;7;15;1;7;23;113;67;1019;1793;3237;7223;5691;6279;50231;49393;84393];
[84598;1;1;1;7;9;29;125;249;89;813;561;871;1957;1095;18563;5257;39563;225651];
[84611;1;1;1;15;17;11;51;191;217;617;793;3633;4673;15463;10621;47221;51611;155937];
[84620;1;3;7;15;13;7;63;57;45;1005;685;2913;3597;9933;14819;26015;80023;60547];
[84625;1;1;5;5;31;43;69;63;425;439;143;933;675;11301;31779;53445;25143;213213];
[84632;1;1;1;5;21;9;91;89;483;153;389;7;633;15527;21833;45171;88331;150935];
[84648;1;3;5;5;11;31;49;139;295;289;1623;3359;7551;11285;25083;27699;91869;237571];
[84659;1;1;1;9;9;25;55;71;51;603;1901;2729;6803;11135;5427;37285;69141;262073];
[84662;1;1;3;11;3;7;81;89;49;303;755;223;603;12525;26037;47867;118871;238677];
[84683;1;3;3;11;1;53;55;15;341;151;245;1979;3523;15151;25075;21425;48689;125391];
[84697;1;3;3;7;15;21;73;247;215;339;1995;633;2557;5625;28443;16413;34615;260591];
[84698;1;3;5;1;1;59;21;247;403;15;1129;2263;3361;10675;30417;31285;69913;124329];
[84709;1;1;5;1;17;3;103;107;333;191;345;3219;3845;5953;26403;51115;71623;52293];
[84722;1;1;7;5;29;13;59;65;185;91;717;3179;1237;1187;25485;40119;6069;23567];
[84753;1;1;1;5;17;57;27;39;269;627;1239;135;623;483;19229;51939;114387;146431];
[84775;1;3;7;9;21;41;119;129;177;149;1527;3639;4489;11635;23007;59863;85199;87795];
[84789;1;3;5;9;17;25;57;237;129;855;199;1929;2793;4277;4509;46301;32905;102015];
[84885;1;1;7;1;15;23;3;131;475;347;1301;241;153;2801;29271;1337;107613;154105];
[84890;1;1;1;13;5;19;43;47;381;709;637;2565;7503;10027;16873;23511;101785;47987];
[84899;1;1;5;13;31;15;125;97;361;819;121;2723;3395;6943;5279;55977;103559;134177];
[84926;1;1;7;13;17;27;105;11;327;203;1355;1437;959;10113;7405;43511;114073;199463];
[84946;1;1;7;5;29;19;7;151;107;739;1021;1287;6881;2741;3407;13847;75669;116015];
[84958;1;1;1;5;5;17;99;67;179;319;149;4069;7811;3055;24669;21635;68057;72059];
[84976;1;3;1;11;3;3;103;45;431;159;1693;1069;3403;6121;12695;16565;29787;199327];
[84979;1;1;5;5;5;35;97;9;7;703;1533;847;7693;16041;13127;26829;68801;205219];
[85003;1;1;5;9;25;59;3;63;305;71;1429;1567;2377;12611;9267;62381;32373;187735];
[85014;1;1;3;15;5;31;21;113;329;573;1975;1615;947;987;4655;46803;100251;89729];
[85017;1;1;5;9;15;63;83;5;71;191;1127;3529;7325;1169;4255;6715;42765;73231];
[85024;1;3;3;9;11;1;1;23;97;967;1465;1305;2073;3143;31333;1409;95321;182333];
[85029;1;3;5;13;21;53;47;105;75;721;239;3619;2581;2063;21227;25579;23729;20067];
[85036;1;3;5;13;1;55;55;115;391;539;869;3347;189;11087;11533;18747;25387;19205];
[85042;1;3;1;15;25;57;81;27;379;635;1697;2805;8071;11407;14843;17593;20819;42891];
[85054;1;3;5;11;1;59;51;187;11;211;1425;3829;3193;15743;16479;4205;108205;205367];
[85056;1;1;1;5;7;7;59;85;63;509;897;2473;7345;111;4431;55273;114037;232541];
[85061;1;1;5;9;29;7;25;41;401;843;115;163;6835;13943;5223;31033;10813;250471];
[85066;1;1;5;11;27;45;43;233;195;151;11;1539;4775;15743;15507;26939;30353;162929];
[85073;1;3;1;7;7;39;1;87;85;1019;1711;2707;735;5093;8231;25069;102861;45751];
[85096;1;3;7;1;19;49;55;249;255;809;1799;3475;7697;5003;12437;52313;96355;138537];
[85101;1;1;3;5;5;43;25;95;349;775;213;3643;1355;7745;9553;53367;123655;195365];
[85109;1;1;1;1;19;53;39;105;449;447;147;2293;7817;1503;31985;37193;51039;209083];
[85114;1;3;3;15;27;15;59;51;411;543;421;3595;2091;7171;23595;33509;37283;105719];
[85119;1;3;1;11;5;37;5;203;171;853;1875;2735;4003;15163;26193;36149;31389;256631];
[85123;1;3;5;1;21;1;127;41;185;929;1757;2711;2947;9709;18401;45037;1371;242397];
[85149;1;1;1;1;13;43;51;187;487;759;1579;959;2499;4781;27179;6839;43869;36163];
[85185;1;3;1;15;5;3;101;25;181;107;1105;879;5341;12215;21615;9619;129591;108393];
[85228;1;1;7;1;11;39;55;101;43;935;1703;1269;6751;13723;7463;10055;112971;72789];
[85236;1;3;5;13;7;3;81;41;55;375;663;801;5051;14583;30793;63897;127255;174179];
[85281;1;3;1;7;19;31;53;29;313;57;1411;103;6863;10673;4341;5587;106059;222309];
[85282;1;3;7;3;1;33;89;199;91;557;715;2715;4753;5987;30355;13819;57443;112179];
[85293;1;3;5;7;13;27;55;11;495;29;1273;1727;3397;2739;22907;46203;16687;47385];
[85302;1;3;5;9;13;23;23;107;353;429;359;2667;6137;7213;7977;35903;118507;209243];
[85319;1;3;1;13;9;7;37;135;377;753;1819;113;7379;2795;10373;7131;17845;246101];
[85353;1;1;3;11;11;45;53;209;49;385;1573;1129;2939;10949;413;59193;15399;169355];
[85354;1;1;5;15;29;29;89;139;403;11;1335;2601;3631;15317;1707;3517;1939;121997];
[85356;1;3;1;7;17;3;113;97;435;911;1743;1649;4829;9995;2873;17527;46931;86199];
[85389;1;1;7;1;13;19;83;51;49;671;1651;3443;2279;5677;8859;41945;110607;200469];
[85418;1;1;5;13;19;63;19;73;205;571;507;1781;1489;5909;10351;64607;67023;49441];
[85446;1;1;3;5;13;35;107;63;489;69;1541;3761;17;9317;20323;35401;61451;116115];
[85450;1;3;1;5;31;35;39;119;237;533;107;3235;4929;15839;9309;50131;110945;24739];
[85463;1;3;1;5;3;25;73;145;391;481;1927;3071;4347;13415;26723;51629;3003;54575];
[85497;1;3;3;11;29;63;63;183;11;269;153;3379;5603;14279;28579;4653;98179;125693];
[85534;1;1;5;15;1;51;101;69;177;233;213;2389;4963;3391;13419;41283;25667;187239];
[85543;1;1;1;11;13;29;95;231;481;283;1323;521;4689;5311;21949;31851;115845;50433];
[85549;1;3;7;15;11;31;67;207;57;439;1561;2167;673;6467;8189;31783;5051;64097];
[85562;1;1;7;9;17;57;77;85;119;149;211;2727;4921;8701;23121;36355;9179;68003];
[85587;1;1;5;15;1;15;123;205;79;299;71;3413;7635;5699;32393;10253;86205;216015];
[85590;1;1;5;11;23;39;105;187;487;247;333;2423;5643;8111;23549;50153;122859;100361];
[85599;1;1;1;9;11;33;65;125;67;743;1331;1563;6333;11375;15873;18137;52765;224889];
[85630;1;3;5;9;15;17;81;165;3;609;635;2093;6635;8647;25883;18907;73333;80835];
[85660;1;1;1;11;1;1;25;115;205;941;1917;1295;3659;821;11355;1435;40289;115627];
[85669;1;3;1;9;13;23;35;105;441;777;1255;3315;1157;8719;9939;38931;120723;123201];
[85693;1;1;5;3;1;21;95;143;23;233;73;1223;5619;8583;21417;61971;74565;116249];
[85711;1;1;7;7;23;35;21;201;441;623;419;2375;1189;15681;29469;29437;124525;241899];
[85716;1;1;3;1;11;7;23;171;435;467;1811;63;3705;9395;579;58305;86165;67805];
[85773;1;3;1;3;13;11;107;243;163;79;815;1149;2247;12411;30287;56915;26939;85883];
[85801;1;3;3;1;5;23;105;63;35;57;1815;3325;3727;3623;7203;8301;28073;190053];
[85815;1;3;1;11;23;33;121;55;287;139;491;907;4237;17;20055;63729;7517;151597];
[85839;1;3;5;5;21;1;37;19;159;1013;27;2627;851;14021;31311;5871;77613;125311];
[85842;1;3;3;1;27;3;51;133;459;581;383;1351;6149;15611;2631;20797;65955;113665];
[85864;1;3;1;11;23;61;75;217;283;405;767;1151;7501;5553;113;48331;49379;191473];
[85867;1;3;5;5;15;3;19;27;497;519;1611;709;405;13329;27861;14981;47197;173979];
[85903;1;1;7;7;25;19;99;219;349;713;1421;3427;153;13319;22415;48617;119637;20835];
[85917;1;1;1;3;13;37;43;9;317;961;1255;2975;2775;12283;29941;57495;77413;256695];
[85921;1;1;7;5;29;37;91;199;397;739;877;251;847;2951;19497;57285;76891;258711];
[85928;1;1;7;15;21;55;107;115;481;845;2015;481;3823;14071;4037;39687;62867;170891];
[85934;1;3;3;1;17;51;81;195;189;455;1343;1493;351;361;20289;37423;7747;245861];
[85974;1;1;5;15;9;41;71;155;197;563;1271;2227;2557;6657;13565;8467;96135;5903];
[85994;1;1;5;13;29;33;115;131;283;435;1327;1113;4729;14125;23743;40121;119955;237453];
[85999;1;1;1;1;13;21;109;91;105;749;1695;1123;4349;9855;31565;64001;7919;83591];
[86004;1;3;1;1;13;19;89;83;13;609;731;2655;1123;13415;5645;10003;69381;187621];
[86008;1;3;1;15;3;37;1;139;11;917;1191;1381;6035;13851;4565;5427;117703;109965];
[86046;1;1;5;3;17;37;15;115;19;65;1807;3879;2709;9819;11457;53705;14821;156079];
[86067;1;1;7;13;17;29;105;77;127;457;1287;1533;6879;4001;4083;29523;81175;226409];
[86084;1;3;1;5;5;59;21;253;459;733;409;3359;1913;8893;16113;61063;6511;22441];
[86087;1;3;5;11;7;1;121;217;63;83;173;1869;7931;655;21053;20703;116853;131785];
[86093;1;1;7;7;5;13;41;57;1;17;649;233;2867;5577;30553;7635;45305;47979];
[86121;1;1;7;1;1;29;61;241;107;891;49;3433;5045;143;22473;29243;82625;184163];
[86122;1;3;1;11;11;21;119;43;117;429;1569;637;67;9475;31779;2237;122037;245361];
[86127;1;1;7;1;31;61;9;179;467;153;1913;2839;6255;12715;28229;20189;3617;213539];
[86151;1;1;7;13;25;61;9;109;331;577;21;1017;6521;5991;26573;56881;58455;169407];
[86166;1;1;7;9;31;57;51;41;327;859;1295;1577;1071;3277;11685;62129;34111;174639];
[86179;1;3;5;1;7;63;35;165;43;943;1545;3717;1471;11579;29637;22913;8867;12837];
[86188;1;1;3;1;23;7;19;151;359;347;1085;3923;1039;5149;6047;49811;33099;247983];
[86193;1;1;1;5;29;23;73;189;59;865;1499;1953;1261;1071;26761;26145;129427;223219];
[86206;1;3;1;9;1;29;107;173;387;703;193;1965;6233;10997;32697;31005;15415;94345];
[86214;1;1;3;9;31;35;7;15;317;79;2045;1455;1559;15087;287;46665;37225;149017];
[86226;1;1;5;13;17;27;11;107;47;803;1487;3049;1171;6237;9157;10037;122349;236877];
[86242;1;1;7;9;21;35;53;139;165;73;1405;2941;3553;11945;2493;5743;63749;140535];
[86256;1;3;7;11;7;57;41;187;483;499;687;117;4951;14709;17025;23027;94863;228465];
[86259;1;3;7;7;27;29;85;117;201;637;823;1135;7595;3323;23579;40759;25087;995];
[86298;1;3;1;9;31;53;101;29;381;101;1939;1973;8191;8155;13881;32309;92907;239525];
[86300;1;1;5;7;3;35;15;207;1;47;325;559;3377;3909;31225;28367;63891;19129];
[86307;1;1;1;5;31;61;117;211;127;969;73;1295;7167;14881;9965;28143;28161;131867];
[86310;1;3;7;5;5;57;37;207;201;79;1151;3685;2071;1751;5481;51447;103437;154895];
[86319;1;3;5;13;9;5;57;27;131;211;1481;2237;4227;6927;18625;49773;55399;15209];
[86321;1;3;1;7;23;29;3;179;479;787;463;2041;2581;6281;1657;51433;93807;160047];
[86328;1;1;3;13;25;35;33;231;385;479;335;3837;5517;13603;15623;46737;42507;208355];
[86356;1;1;7;9;3;25;51;125;213;175;1575;1755;1843;14361;13155;22445;55435;62793];
[86360;1;1;1;7;25;3;21;7;309;547;19;471;2679;16185;12149;41437;47625;75113];
[86375;1;1;5;1;9;23;81;95;123;143;1111;9;3501;11897;26499;10009;48073;182529];
[86399;1;3;1;1;1;17;15;157;129;1005;543;3917;3493;6537;26997;33217;7987;251635];
[86400;1;3;1;13;11;41;9;19;173;751;491;1645;5205;9907;28503;61137;79727;200851];
[86403;1;1;1;1;3;5;105;203;97;903;1507;2719;5275;1023;29595;42507;39893;151495];
[86430;1;1;1;11;31;53;51;65;145;671;489;109;803;8541;4439;33893;98495;114955];
[86446;1;1;7;11;27;63;117;235;497;841;1461;3757;1077;6997;9611;47453;20197;176939];
[86460;1;3;3;3;31;17;85;145;377;225;1033;3017;735;5811;25503;25457;124623;51713];
[86465;1;3;3;13;19;33;127;57;321;687;1651;3321;5051;8511;19609;49927;30499;102613];
[86486;1;1;5;13;7;17;17;147;381;137;1007;2607;1071;8921;13955;47223;130359;246265];
[86502;1;3;7;9;13;35;71;129;57;233;357;3181;2841;3707;24947;57777;115133;6049];
[86563;1;3;7;15;23;1;107;225;57;633;1515;1631;4303;4221;8281;59139;45023;70219];
[86595;1;1;7;5;9;9;93;131;41;245;1261;459;4811;10987;10421;63839;34067;196353];
[86635;1;3;3;13;17;3;87;255;167;701;821;1965;1415;4101;549;6347;92421;47193];
[86649;1;3;7;11;23;17;51;81;71;345;971;917;1057;3627;20361;13491;12855;234215];
[86661;1;1;1;13;17;9;25;155;463;851;243;3887;2445;7459;19915;21813;86969;85891];
[86674;1;1;7;1;9;15;57;201;193;169;351;1355;1089;4705;15153;51359;49907;66007];
[86689;1;3;1;9;19;13;69;83;39;667;1549;1503;7167;8657;17269;59357;80091;194007];
[86721;1;3;5;5;17;37;125;117;355;685;637;3159;4783;3159;14953;12731;126759;89149];
[86734;1;3;3;9;15;53;7;41;473;857;511;3741;6837;6167;26351;9885;104819;48221];
[86741;1;3;7;15;21;21;21;101;465;223;13;1773;2763;8621;23591;12633;82143;134899];
[86742;1;3;1;1;29;25;67;19;349;503;655;3567;97;6967;18253;42755;33041;250279];
[86784;1;1;7;9;17;1;7;165;255;613;579;127;7567;13181;6255;1785;21527;113815];
[86799;1;3;1;5;27;33;61;235;37;135;1515;3611;1825;9627;18805;37065;126107;23223];
[86808;1;3;7;5;23;11;29;121;129;311;429;1653;5789;7693;18775;18189;97203;213501];
[86837;1;3;7;3;29;61;87;197;43;509;5;3275;345;7885;4381;22059;1395;40125];
[86869;1;3;5;1;1;59;69;125;297;983;641;2665;7045;8591;16581;58657;119189;256579];
[86900;1;3;7;7;7;53;65;181;149;987;1377;4045;971;9827;17727;59357;90975;27395];
[86949;1;1;7;7;1;51;109;165;361;515;739;3709;6431;113;21401;41743;53071;134205];
[86993;1;3;1;13;5;51;107;99;135;163;1705;1683;6221;1377;2211;13379;22801;208753];
[86999;1;3;5;11;11;39;49;45;503;549;821;4077;885;13721;29673;28435;6235;212071];
[87030;1;3;3;11;15;25;17;67;125;7;1163;973;5325;12707;12763;9481;21363;195897];
[87041;1;1;7;9;17;19;15;13;107;919;461;343;1101;8195;29293;61643;64995;230469];
[87044;1;3;5;1;9;25;39;65;27;461;669;2841;7973;11565;9531;52235;6741;215513];
[87084;1;3;3;1;7;57;101;199;37;79;2033;1723;6877;2733;26445;62625;21671;238431];
[87116;1;1;1;9;27;31;125;199;331;611;523;407;747;9499;4685;17805;43717;253233];
[87138;1;1;3;7;29;7;7;153;339;337;701;2639;6311;6375;26023;27693;59733;260405];
[87162;1;1;7;7;15;27;23;49;181;433;485;2915;6021;9095;15951;47257;104513;208089];
[87188;1;1;5;7;19;19;125;153;109;829;1967;2567;7157;6001;10151;55323;92405;82549];
[87211;1;1;3;11;13;17;85;215;265;875;311;3773;8059;2115;19259;63999;77411;220267];
[87234;1;3;1;15;15;35;81;213;411;435;105;1487;1991;14539;8175;2115;47259;45893];
[87245;1;3;1;11;9;47;27;115;449;521;321;2463;1355;5785;11269;45337;29049;91675];
[87246;1;3;1;13;21;53;49;83;373;519;757;1241;577;14443;449;44773;116673;155209];
[87260;1;3;3;1;29;63;97;145;371;585;1809;3997;249;283;28369;27325;61673;12637];
[87270;1;3;5;9;11;55;77;89;285;297;861;2791;3245;15093;32489;40477;97603;35347];
[87284;1;1;1;3;27;33;115;209;169;893;393;1457;6069;12511;20423;11385;86711;197555];
[87293;1;3;5;15;21;25;87;159;477;177;991;495;29;9347;9721;4071;30145;214155];
[87296;1;1;5;3;11;45;53;251;177;651;549;3377;3247;8761;20339;27743;103387;159591];
[87299;1;3;7;11;17;27;43;179;507;553;261;3939;6133;6347;12987;46071;42551;99225];
[87305;1;3;3;11;3;33;85;51;277;117;1295;2435;1467;13787;2209;52673;53515;157625];
[87308;1;3;3;3;9;15;121;229;227;795;541;3727;4333;2251;27833;43567;82505;230427];
[87313;1;1;5;13;29;19;119;63;207;945;761;2601;1391;8939;11683;52433;63301;82501];
[87323;1;3;7;1;3;57;127;115;209;31;1631;347;3937;4015;13313;49507;15103;237071];
[87332;1;3;1;13;3;25;85;151;115;385;303;2453;2417;8051;1447;59517;3711;160345];
[87361;1;3;1;13;1;23;49;75;117;295;1737;2091;6229;3157;32737;13751;101667;96261];
[87376;1;3;3;5;27;19;103;201;65;757;1847;239;2185;15139;8883;17737;9207;147663];
[87392;1;3;1;9;3;39;51;1;419;929;1049;2891;2585;2759;27587;55711;15461;46851];
[87419;1;1;5;3;23;23;23;101;249;997;1889;2293;5693;939;29619;2775;49293;168895];
[87432;1;3;1;15;9;63;17;97;385;517;1737;713;157;2597;20889;35209;47525;14389];
[87435;1;3;1;1;7;27;9;147;349;493;341;2699;7743;4283;24691;11881;78619;153899];
[87445;1;3;1;9;15;25;103;177;485;355;1319;767;6675;3425;7187;53767;92023;151523];
[87466;1;1;3;3;15;35;25;177;295;5;661;3651;2597;16229;1343;54941;72047;169155];
[87491;1;1;1;1;19;29;63;229;79;551;1401;2851;6935;12485;9243;21671;54209;105347];
[87503;1;1;3;1;13;33;53;125;261;623;65;3863;1899;2453;16483;48655;50771;248555];
[87558;1;3;5;7;25;15;107;149;485;247;1977;3125;4663;4925;15749;39429;52315;30545];
[87570;1;1;7;13;23;13;127;111;9;17;1887;1341;3017;14333;6003;35113;14935;17593];
[87581;1;1;1;15;23;17;111;43;71;549;1369;1711;3903;13605;14573;18973;28157;128421];
[87603;1;1;7;15;27;23;5;99;87;865;1979;3287;3977;14989;17439;14593;92711;211259];
[87615;1;3;3;15;5;19;3;231;127;863;1537;369;7915;10281;13925;12931;3905;178609];
[87623;1;1;3;15;13;5;17;217;383;251;1701;3379;8157;4991;8563;24611;66081;205775];
[87635;1;3;7;11;9;25;73;131;217;601;843;807;4509;16209;29581;50869;56595;14283];
[87647;1;3;5;9;5;59;57;153;359;775;859;1897;6415;7389;10851;64247;21627;145017];
[87651;1;3;7;1;27;11;117;179;175;343;687;2775;3655;11655;2641;355;83447;237799];
[87657;1;1;7;11;17;59;91;21;403;797;1839;525;3279;6575;30083;12503;83057;109465];
[87665;1;3;7;1;25;27;41;223;169;679;699;3287;6305;6459;23145;45519;127487;183563];
[87694;1;3;3;1;9;45;105;57;185;97;899;3113;7081;7057;14559;53537;105623;155399];
[87701;1;3;7;5;17;35;89;13;87;587;451;4079;1005;4311;15861;49977;59653;12107];
[87705;1;3;7;3;19;55;43;77;317;369;71;937;1905;5005;17715;4005;55445;25159];
[87722;1;1;7;15;15;51;87;37;59;755;763;455;711;13399;30999;61269;66037;202793];
[87739;1;1;3;5;11;57;111;135;325;553;273;1533;3431;6427;24771;42143;56711;220873];
[87750;1;1;1;13;3;49;53;81;491;177;1543;1847;7907;7817;15417;9897;101597;160195];
[87790;1;3;1;15;19;15;91;123;365;113;129;3371;5789;13553;6887;62317;84269;44777];
[87795;1;3;7;13;15;63;43;175;449;437;597;1371;5101;13797;28025;15809;7645;21169];
[87797;1;1;7;13;23;63;105;69;219;153;1539;1537;6899;9363;27459;34551;62563;236679];
[87816;1;3;7;3;9;33;3;101;135;571;127;3881;7017;13403;13817;55167;8645;471];
[87884;1;3;3;13;7;53;29;89;473;135;639;3137;93;965;4867;58265;114963;175295];
[87917;1;3;1;1;9;11;45;123;129;441;1601;39;4657;3701;29581;16045;57173;75195];
[87930;1;1;3;11;7;21;9;73;25;891;1625;3019;223;14351;30621;3075;79051;178127];
[87942;1;1;7;3;7;43;69;209;9;857;1539;2629;5277;14583;16443;28275;54143;206479];
[87953;1;3;5;9;27;15;109;237;323;103;837;597;3609;6249;795;37191;20997;142079];
[87954;1;1;3;1;27;33;123;191;55;531;1707;2633;6717;9645;21377;51593;9017;178185];
[87984;1;1;5;15;3;3;67;225;229;161;2039;1499;873;8803;29901;58809;35625;207797];
[87989;1;3;3;7;3;47;99;237;221;31;1043;1081;837;1617;17323;43879;55615;238537];
[88008;1;3;7;1;17;37;45;211;245;657;221;1067;1683;16127;585;9067;25935;162469];
[88016;1;1;5;9;23;27;5;237;137;227;129;279;4171;5963;349;12387;40701;177255];
[88038;1;3;7;15;17;11;95;69;49;901;509;2541;3001;15501;24235;39863;95381;260793];
[88042;1;3;3;3;29;3;125;3;423;609;1401;2337;1093;11419;29735;9033;115977;210201];
[88044;1;1;1;9;11;21;71;33;399;1005;1691;1501;2585;7361;21527;7535;87091;192319];
[88049;1;1;1;11;5;49;65;115;239;255;381;2803;3447;5775;18243;16545;108901;81355];
[88083;1;3;7;15;31;5;81;213;281;903;189;1807;3551;4423;3591;27449;71659;255357];
[88119;1;1;1;15;11;1;25;213;259;215;435;3531;4889;9509;21391;21589;89871;85895];
[88134;1;3;3;9;29;29;37;127;419;631;1793;1547;1463;13265;17233;24627;3687;174179];
[88138;1;1;1;7;27;61;105;135;439;161;721;2779;6731;14575;4565;25869;38981;191683];
[88143;1;1;7;13;21;41;43;5;313;407;505;231;5023;8971;15825;38461;38797;136027];
[88191;1;3;7;3;7;59;11;255;327;843;1179;889;4505;10891;7901;14485;72297;255985];
[88216;1;1;5;3;9;37;89;59;413;51;515;4009;6501;8443;14381;60917;43567;234431];
[88231;1;1;3;9;9;57;65;205;367;935;1975;2561;225;12529;4721;56659;87901;219641];
[88232;1;3;7;15;23;55;61;15;89;267;1245;2703;7471;10499;19;19357;72413;199289];
[88297;1;1;1;13;1;29;65;11;353;509;1831;2181;5265;14761;913;17109;113613;37143];
[88300;1;1;7;5;17;37;97;249;169;223;475;2091;3101;8541;325;42359;16121;151739];
[88308;1;1;3;13;1;45;13;209;395;215;15;2287;5365;9887;29799;51957;97483;109467];
[88317;1;3;7;1;9;35;91;51;387;833;783;2483;3743;6155;5881;3047;86191;151867];
[88344;1;1;1;7;15;25;13;3;119;333;761;3459;2555;15737;12945;15225;45487;78235];
[88350;1;3;1;3;13;55;111;45;121;593;633;2705;1653;13275;13533;3559;100573;124363];
[88371;1;1;3;1;29;49;65;69;133;667;653;2559;6335;8019;9251;5415;90125;197413];
[88469;1;1;1;7;23;53;99;149;39;453;129;185;1143;12799;23339;41293;94023;105581];
[88483;1;3;3;13;5;3;5;215;425;455;421;3815;5983;3851;19569;17363;6411;60037];
[88485;1;3;7;1;29;7;63;207;299;17;1915;2041;8129;661;32481;55475;72027;239683];
[88518;1;1;5;13;29;11;39;177;177;479;1291;3931;4353;327;7827;9529;6967;6469];
[88586;1;1;5;3;25;39;121;15;7;715;583;3997;1373;7747;1777;7269;105333;201511];
[88605;1;3;3;9;11;7;81;109;129;359;1281;1163;4895;10303;17801;43461;120271;173027];
[88621;1;3;5;1;23;59;123;75;505;925;637;1713;995;14031;13711;62569;90553;242345];
[88651;1;3;3;15;19;11;39;203;229;619;735;1367;4963;5263;30229;17847;9623;3277];
[88656;1;1;7;13;5;27;23;223;377;335;1821;2481;4111;10373;18423;7237;75225;223433];
[88665;1;3;7;1;21;19;71;107;19;703;945;3831;1099;6267;17489;27665;8861;127499];
[88668;1;3;5;1;19;49;117;181;245;939;1279;3127;4427;3061;23399;64805;43077;100789];
[88712;1;1;3;3;31;55;53;205;97;645;215;2617;7419;7159;27373;62341;58121;248677];
[88717;1;1;7;5;15;41;99;75;201;187;197;3773;3097;6803;5307;31375;26743;142723];
[88751;1;3;5;11;23;61;127;15;89;245;1345;1305;5937;15917;23867;50319;91921;248663];
[88754;1;1;3;9;27;7;1;75;181;155;1947;577;2975;8855;5295;43403;112497;100679];
[88756;1;1;1;11;29;61;35;241;207;73;1747;1797;3665;14275;25359;28685;79367;81819];
[88785;1;3;5;9;11;1;37;79;431;157;1979;159;3087;1731;26141;31411;56457;94293];
[88801;1;3;7;1;17;35;107;243;279;79;227;1275;761;11485;22181;16415;68801;4577];
[88807;1;3;1;9;21;43;115;131;129;123;1677;1875;7355;15927;845;24101;48985;39703];
[88826;1;1;7;3;17;25;105;189;317;109;1629;3103;615;1047;621;62743;43631;9811];
[88848;1;3;1;3;3;45;49;73;383;761;685;3211;3855;16307;30469;1393;52535;165503];
[88854;1;3;5;15;1;41;89;105;213;33;1477;711;4823;503;12533;56781;42825;223399];
[88864;1;3;5;9;17;45;63;113;359;927;1467;2811;4275;5193;6023;32689;87747;234697];
[88879;1;1;3;1;21;49;73;157;97;915;1689;3289;7515;10759;32253;63175;66175;125813];
[88939;1;1;1;5;19;1;127;229;453;617;511;1515;3815;3125;26851;31635;35389;237483];
[88947;1;1;1;13;27;61;75;23;289;133;975;3217;3777;12095;15235;33845;125503;88417];
[88987;1;1;3;13;27;49;29;115;221;995;1305;2717;2243;13391;20841;863;63195;46829];
[88990;1;3;1;11;31;49;43;163;503;123;657;1285;3695;8401;17087;48289;3947;41495];
[88996;1;3;7;9;21;17;125;75;395;979;781;2501;6511;4619;28943;18295;87547;196289];
[89008;1;3;3;5;3;39;107;199;7;331;77;511;5787;3155;29605;44633;51041;89141];
[89011;1;1;3;7;11;37;79;69;181;623;299;2321;4371;7449;3137;25753;116673;30441];
[89043;1;1;5;9;11;13;49;207;179;671;1469;1005;6887;12203;9365;62455;36283;42053];
[89045;1;3;1;1;7;31;115;79;435;101;1525;3695;3229;11401;23959;62055;37725;219753];
[89050;1;3;3;7;25;49;123;161;275;291;255;2247;4271;10771;2449;26343;61169;30691];
[89097;1;1;7;1;15;3;11;15;125;1021;1817;417;2721;13985;19039;451;32559;199407];
[89100;1;1;5;15;11;25;23;101;427;431;1353;1957;3529;513;11937;14469;89539;242015];
[89106;1;1;5;13;27;5;107;29;469;3;1427;1949;7007;16339;3375;63545;100739;229487];
[89134;1;3;5;13;15;17;59;213;417;557;11;811;5041;4133;25735;46807;65669;148081];
[89178;1;1;5;13;9;47;35;173;277;805;1249;3707;1079;2833;29383;58995;21005;181567];
[89189;1;3;5;1;5;25;125;45;157;291;1329;3317;2311;9919;31001;65127;19451;117621];
[89202;1;1;5;9;31;21;9;193;23;879;699;1135;7151;8635;20711;45207;67047;4397];
[89211;1;3;1;11;11;49;119;129;409;491;463;833;3661;607;25961;6061;12747;160337];
[89224;1;3;1;15;31;35;93;95;239;695;1113;2371;2625;10371;10781;46209;67051;109923];
[89241;1;3;5;9;5;61;25;19;99;159;55;43;3679;1023;17951;44841;101653;195955];
[89251;1;1;3;11;19;45;99;47;407;115;353;3537;7147;5837;27309;44539;30227;93183];
[89254;1;1;7;15;13;59;83;215;79;865;269;2999;2415;10631;23655;51583;46105;43965];
[89258;1;3;7;5;17;1;7;119;501;25;1097;3639;7017;381;4793;37263;60431;77323];
[89295;1;3;7;13;1;37;99;103;459;853;5;3093;6167;14497;7003;36979;71919;64823];
[89328;1;3;7;5;23;7;37;255;297;115;113;579;4561;5245;11173;28645;23989;240777];
[89357;1;3;5;9;29;47;43;145;481;251;737;2531;2425;529;3953;13229;35933;187855];
[89403;1;3;1;15;15;15;29;73;405;91;1399;3599;1517;11075;11265;22817;26619;1183];
[89420;1;1;5;15;21;47;93;33;47;527;877;3453;3867;4007;32503;11789;68333;187419];
[89426;1;1;3;13;5;3;99;21;17;779;541;3919;1339;13507;28965;61145;50421;192319];
[89465;1;1;3;7;31;63;17;9;331;681;515;1067;351;2471;31271;36015;72911;32383];
[89471;1;1;3;7;1;55;97;211;409;499;1207;2405;2291;1373;1263;65303;38655;159965];
[89475;1;1;1;5;23;11;21;23;35;19;1699;2325;6117;14971;32327;31369;28061;112819];
[89547;1;3;3;13;29;63;19;201;173;395;1437;369;7045;14347;5393;11311;28415;161019];
[89549;1;3;1;5;31;15;101;13;97;865;1063;2129;811;3337;7585;54803;122099;149531];
[89558;1;3;3;13;19;5;47;13;497;683;1197;3509;4375;3353;31847;283;95281;7975];
[89564;1;1;7;5;25;19;59;105;167;775;581;2679;3003;9345;20209;31487;25357;226341];
[89611;1;1;5;5;31;61;13;77;189;141;1157;609;7245;15303;32743;50229;67391;173977];
[89616;1;3;7;13;17;11;49;135;475;303;1373;1437;6119;1729;21347;31643;86523;41223];
[89626;1;3;7;13;3;19;103;53;209;281;77;2009;7911;8549;17655;33165;9685;2289];
[89650;1;3;3;9;5;31;71;113;93;255;165;3465;6769;13047;20701;33669;22537;175209];
[89691;1;3;1;1;15;59;89;227;275;451;869;1865;1327;3895;5459;47997;34287;95343];
[89718;1;3;7;13;27;1;25;99;475;421;693;1955;4017;16037;29915;52415;99913;59151];
[89764;1;3;5;1;9;61;107;149;465;1003;891;2387;407;5851;6287;56401;109693;72035];
[89776;1;1;1;11;25;53;101;125;35;949;1019;3087;2785;11271;25623;57313;115683;101923];
[89785;1;3;5;13;19;13;97;147;149;483;1727;1771;2089;8661;28223;30437;42565;13261];
[89813;1;3;3;11;17;9;13;13;419;531;1617;1459;411;9953;25581;30305;120721;81113];
[89817;1;3;3;9;9;9;83;35;367;981;911;1915;4937;16187;20441;30433;107605;119939];
[89861;1;3;7;11;11;47;31;7;141;905;1753;3069;47;7347;10517;19515;126827;68669];
[89876;1;3;3;9;17;33;121;159;265;389;261;2479;7705;6453;31963;14123;100201;77235];
[89889;1;1;5;5;13;63;3;1;107;383;633;2183;1437;14525;29315;3277;2153;204061];
[89904;1;3;3;3;17;9;47;173;17;413;451;1127;1807;5265;32543;8215;123601;138777];
[89939;1;3;1;1;7;57;93;29;101;955;1445;4017;2853;3551;22173;40355;34687;133063];
[89948;1;1;5;11;19;15;95;177;49;971;15;2293;2627;7841;2103;64331;60481;182431];
[89952;1;3;1;15;25;57;47;85;485;11;1669;995;6939;4125;19513;62397;62645;82213];
[89964;1;1;1;11;1;37;101;157;17;261;997;817;2195;4141;10505;60685;98165;167391];
[89969;1;1;1;1;31;9;103;97;161;13;1043;307;7321;671;12417;58661;23031;207833];
[89979;1;1;7;9;15;49;69;117;93;95;507;393;6169;2111;27179;47217;93699;67315];
[90009;1;3;7;1;23;41;115;125;343;615;397;1199;3041;11019;1071;51069;75757;245765];
[90022;1;1;1;13;7;15;111;239;29;419;203;2395;3995;13;32341;17471;53259;3317];
[90031;1;3;1;11;29;27;15;217;17;163;1847;3549;4911;4539;4927;57157;44893;41669];
[90043;1;1;7;7;25;15;101;149;433;717;1827;3837;4565;14521;28857;27775;117429;136131];
[90045;1;1;1;3;25;35;85;3;381;253;375;3967;3101;12727;31739;48885;35821;92229];
[90068;1;3;3;7;29;5;51;157;67;467;1957;3453;1353;4839;25379;42731;109385;52479];
[90071;1;3;7;13;3;55;61;73;257;313;89;2557;7467;2223;2951;49265;126605;72007];
[90082;1;3;7;5;5;11;83;3;347;63;479;529;5059;7029;20523;58387;44891;168921];
[90087;1;3;1;11;3;51;99;5;161;279;1509;3659;3107;13925;5117;46153;48731;69767];
[90117;1;1;5;5;3;53;49;243;383;401;1205;975;3305;12769;25533;28733;115161;160885];
[90127;1;1;1;7;15;5;43;143;493;527;1625;2115;3929;12425;16127;25045;55973;202359];
[90163;1;3;7;7;11;9;69;79;417;941;473;1655;5763;9889;22443;12153;103489;74737];
[90166;1;1;7;9;27;31;97;253;199;99;1955;1481;2509;11923;6337;15899;122515;244721];
[90177;1;1;5;13;29;15;35;177;261;613;1279;2837;2945;4501;22865;36893;51979;245569];
[90211;1;1;5;9;21;5;85;5;303;165;681;3965;2575;1493;10367;55845;92139;92539];
[90218;1;3;5;1;23;49;49;161;481;181;1991;1845;4541;14187;10893;64931;79943;57907];
[90225;1;3;1;5;11;27;19;193;371;463;1573;271;1127;15091;9967;40337;104163;159339];
[90231;1;3;1;3;13;3;57;149;465;789;1155;2223;2007;13987;19057;40447;5217;86191];
[90235;1;3;5;5;9;45;27;155;95;171;489;2539;843;16125;7047;58541;84641;212013];
[90289;1;3;5;13;13;53;101;159;7;481;143;3869;6629;3527;1555;6019;155;230157];
[90344;1;3;1;1;19;59;59;129;107;887;1595;93;6577;3947;14409;31081;68595;226741];
[90347;1;3;3;11;13;49;81;253;363;875;489;2181;3487;1615;31157;32949;44809;119421];
[90379;1;1;3;1;3;19;71;93;397;521;2015;3829;3013;3941;29437;1959;70283;254361];
[90387;1;3;1;3;27;11;95;39;299;521;389;3451;3047;8637;22537;11279;67407;101511];
[90418;1;3;1;1;27;43;123;237;315;503;1059;2185;3963;1593;19157;13909;58025;91649];
[90435;1;1;7;1;5;19;79;109;459;541;521;89;389;13499;9769;1429;117357;153261];
[90444;1;1;5;3;9;29;21;97;219;915;2013;1955;1015;549;9777;5005;110953;16915];
[90472;1;1;1;9;29;11;103;167;465;515;843;151;769;12033;9451;14949;110075;113947];
[90478;1;3;5;1;21;1;105;49;35;737;231;2761;1519;9997;601;20883;42575;98081];
[90485;1;1;1;5;13;63;47;171;187;407;643;1423;6325;10079;23781;36353;20655;10231];
[90486;1;1;7;13;13;13;91;31;19;305;505;1937;2683;10791;7719;54797;9405;195819];
[90513;1;1;1;7;17;9;21;211;85;851;211;1533;4035;11;26873;16755;77809;44603];
[90514;1;1;3;1;29;47;31;141;9;881;1229;1261;3747;4603;22177;48937;21435;157029];
[90532;1;1;1;9;11;35;109;187;319;863;1339;2193;4147;3721;7243;18295;92461;88875];
[90567;1;1;1;1;25;41;79;191;47;819;2013;3133;2763;9231;10343;49693;26753;97465];
[90595;1;3;1;3;17;25;63;139;179;113;1681;1997;4561;14453;30721;7053;22937;183303];
[90597;1;1;7;3;29;11;41;157;427;887;295;443;5593;8633;9757;37595;121655;135739];
[90621;1;3;1;7;29;5;23;231;85;67;103;1395;7821;9551;17019;1825;69963;254583];
[90631;1;1;7;9;7;23;7;205;17;111;1219;3101;7485;11579;11791;10203;119835;175985];
[90668;1;3;3;13;3;57;101;255;331;911;491;3929;2519;2185;21107;24599;92831;75001];
[90706;1;3;7;1;23;53;69;229;295;881;905;3727;3885;7967;2061;53595;16033;36443];
[90708;1;1;7;15;21;1;127;115;191;53;929;1093;5447;1665;4409;22611;38157;139201];
[90715;1;3;3;13;29;31;113;215;365;41;1977;2839;4147;8321;1361;45717;80505;176631];
[90724;1;3;5;3;3;57;25;81;41;229;669;3371;7505;1197;14921;34365;67571;27355];
[90769;1;3;7;9;17;35;7;169;13;163;2007;3697;5635;8003;26105;62917;19349;47029];
[90791;1;1;5;5;29;27;89;137;69;189;871;3139;6383;14955;15349;60447;122291;26541];
[90792;1;1;7;13;27;49;115;111;441;865;1397;161;755;14461;8601;45533;105309;149799];
[90805;1;1;7;3;9;29;91;5;239;605;491;1705;4099;9111;19821;56903;62815;40615];
[90810;1;1;7;15;5;45;71;225;211;539;1881;1201;5675;6061;12121;13289;30455;33131];
[90820;1;1;5;15;5;59;35;121;185;143;165;2999;7907;5035;8337;11951;66403;219997];
[90844;1;1;5;9;3;7;27;129;245;93;715;1249;1717;13381;31255;23153;22227;8077];
[90907;1;3;5;11;19;49;21;163;157;615;1475;2453;6315;12325;26565;58399;49385;252127];
[90925;1;3;7;11;23;3;35;61;409;795;1447;3461;535;6533;25757;31783;9509;217589];
[90926;1;1;5;15;9;21;67;65;399;515;777;3183;1155;16071;7339;59985;56659;200701];
[90934;1;3;3;1;15;33;119;145;71;517;1775;163;5307;1549;31071;56289;128395;230381];
[90946;1;3;1;7;7;47;97;187;193;887;515;1301;4841;12069;413;41503;36421;45909];
[90981;1;1;5;3;17;21;53;227;137;865;715;3601;5027;2983;24113;23349;106391;188193];
[90999;1;3;7;15;29;37;91;235;351;15;425;681;187;1517;30079;41347;49691;66369];
[91003;1;1;5;5;15;25;93;245;397;517;1635;2475;5543;9597;27721;21475;79571;259011];
[91019;1;1;1;5;21;29;5;161;37;409;1661;3371;5663;4317;9951;23605;7393;90593];
[91022;1;1;3;15;21;51;79;159;209;891;1391;2895;5003;6601;17983;42359;104497;162181];
[91050;1;3;7;11;23;51;99;145;21;345;1389;1035;5939;8293;22765;23331;7789;115149];
[91055;1;1;5;11;27;61;115;123;317;607;463;779;5121;3861;18761;39407;125837;244163];
[91064;1;1;7;3;15;9;33;1;437;621;31;147;8157;3451;18223;61187;125297;211225];
[91078;1;3;1;11;27;55;21;251;5;57;1889;71;3745;499;9043;62683;21945;138615];
[91117;1;1;3;13;25;9;1;31;277;373;507;301;2341;1741;11997;47661;44121;183151];
[91120;1;3;3;5;15;51;5;233;475;397;1833;1267;7025;2593;15425;47053;16205;208007];
[91129;1;3;3;9;31;51;123;219;493;789;659;985;7283;11545;15383;25173;130423;196619];
[91140;1;1;1;15;9;17;37;145;297;933;1019;1699;2149;12391;17003;42157;126283;252231];
[91157;1;3;5;9;17;1;91;69;335;857;925;3855;2225;6909;19101;12191;92117;229077];
[91161;1;3;5;13;5;21;67;17;307;879;1563;3169;745;6799;27237;39621;1413;146295];
[91240;1;3;7;13;17;59;23;253;415;761;451;2773;3523;10985;29853;7275;79521;133447];
[91260;1;1;1;1;15;43;89;19;85;837;1335;1641;105;5429;8317;45555;104447;102313];
[91270;1;3;3;5;17;21;67;235;367;265;1069;835;5457;177;26987;39477;6895;123283];
[91287;1;1;5;15;19;61;5;15;487;291;661;825;1569;8795;13035;57077;112847;160267];
[91321;1;1;7;9;27;21;91;133;361;7;447;3035;3523;13167;15927;35555;35713;91291];
[91336;1;3;7;11;17;23;77;255;437;897;1185;1633;6451;13081;29097;61335;39671;177835];
[91341;1;1;7;5;31;49;81;221;167;241;1895;1813;1493;2475;379;5685;116341;121823];
[91378;1;3;5;9;25;11;117;253;337;381;743;69;1641;3649;26335;59683;28729;83449];
[91398;1;3;1;7;15;17;59;9;129;233;1905;1371;6521;8953;26173;9707;70817;260035];
[91437;1;3;1;5;19;53;23;255;305;835;1387;2947;3013;9117;27571;47123;49881;47229];
[91440;1;1;3;5;23;37;123;193;365;49;1211;3083;8133;14205;11361;55945;23225;159109];
[91475;1;1;7;11;5;49;43;165;97;581;617;3045;6187;8399;24045;46713;28389;156811];
[91494;1;3;1;5;29;17;75;231;59;143;2041;2319;2289;11805;4039;29895;91305;179091];
[91500;1;1;7;7;29;5;13;43;409;81;751;2157;2543;13317;28275;60871;119833;36743];
[91511;1;1;5;13;5;5;21;101;497;993;157;647;3587;1495;20233;30889;112579;172009];
[91567;1;1;7;13;7;19;101;217;305;897;1305;1693;6881;2415;17373;56327;53971;19021];
[91572;1;1;7;15;31;61;93;99;459;999;239;969;2427;12295;23699;4839;73707;110365];
[91601;1;3;5;9;15;59;29;35;15;331;93;529;2651;5675;3039;25967;2907;222053];
[91617;1;3;3;1;1;17;59;81;495;917;1907;3;1989;14339;21311;60909;39393;54115];
[91653;1;3;1;9;1;37;31;201;251;117;1753;2453;5007;6935;1165;49231;51495;200219];
[91678;1;1;3;3;15;47;17;175;77;363;1455;1417;1357;2295;31165;53337;97891;145621];
[91705;1;3;3;3;27;31;41;179;47;629;5;2543;6817;8953;7151;20715;52363;251037];
[91723;1;3;1;1;21;11;103;87;285;189;1911;2979;7563;13405;2309;25695;106277;179493];
[91725;1;1;1;5;7;19;1;233;261;825;1071;3529;5617;11207;24559;47461;79753;41009];
[91733;1;1;3;1;15;35;65;157;381;509;1455;3117;31;2251;29729;33687;74999;214765];
[91761;1;1;7;11;31;43;11;147;509;891;1929;357;3905;16251;30169;27787;124003;142587];
[91768;1;1;7;11;3;31;93;161;311;377;1119;2177;4339;3889;24299;35167;87583;145611];
[91790;1;1;5;9;23;9;73;85;233;919;1319;13;3353;1029;31251;17731;86759;11705];
[91804;1;1;1;7;27;23;67;235;207;161;697;2433;833;5305;32695;29327;25285;51289];
[91807;1;3;3;3;31;55;107;211;61;993;1443;463;5029;5401;8821;29721;113939;194839];
[91808;1;1;1;11;11;33;39;167;17;863;363;3967;2277;4053;15403;31887;98565;217953];
[91818;1;1;7;1;21;47;97;147;155;327;1417;3531;7649;8975;21221;57631;72611;97745];
[91840;1;3;3;1;1;63;19;91;105;991;819;673;7845;14947;1633;40517;91525;151041];
[91849;1;1;7;11;25;43;57;141;65;415;1045;3947;7099;11653;29321;51591;2591;44803];
[91869;1;3;1;9;15;19;105;37;485;3;213;1217;951;5637;1589;25501;95073;124683];
[91873;1;1;5;7;13;19;55;143;507;575;715;1633;5201;10493;26041;18407;8097;152313];
[91876;1;1;3;5;9;51;5;171;143;877;1571;2997;4209;13423;9389;23015;6665;254799];
[91888;1;3;5;15;31;43;87;79;89;463;1075;1257;1631;13225;13529;53267;73651;89125];
[91891;1;3;7;13;23;17;93;113;45;225;1939;3301;6031;9749;16577;12857;68437;169861];
[91897;1;3;3;15;31;11;91;127;227;813;105;901;6861;10627;18425;2553;102503;83167];
[91911;1;3;3;13;17;63;83;163;451;659;1995;2283;6297;8097;20935;6017;4977;5045];
[91965;1;1;5;13;27;47;103;129;259;975;391;2343;6639;1385;30187;35401;74321;24751];
[91971;1;3;1;13;1;57;37;65;57;413;63;3819;5915;3925;20777;48539;3019;54965];
[91988;1;1;7;3;7;13;91;33;143;489;657;3127;707;10841;11307;37855;92697;119189];
[91992;1;1;3;11;25;47;11;57;463;693;55;501;3765;15443;12917;61677;97145;213637];
[92004;1;3;1;1;13;49;13;225;101;475;627;1447;7587;11335;3599;20795;72915;174663];
[92021;1;3;7;5;31;15;115;255;329;365;959;3399;4695;14537;1447;17391;88557;130213];
[92035;1;1;1;9;25;47;29;173;29;149;291;691;7621;7607;20769;7149;27323;57689];
[92068;1;3;5;15;3;61;119;247;25;495;1297;1119;8011;16077;21567;30559;88455;68763];
[92098;1;1;7;1;11;47;109;115;313;517;1951;3319;337;11793;22345;33457;47383;213893];
[92104;1;1;5;11;11;53;103;237;383;927;421;4085;3327;169;9941;24753;65437;108173];
[92121;1;1;5;11;17;59;107;53;479;143;825;2667;5219;6143;11573;33637;124981;98195];
[92127;1;3;3;13;3;17;61;129;475;585;1611;1791;7817;4099;20437;51411;130173;220085];
[92151;1;3;3;3;27;25;33;255;361;967;1415;3213;3341;15875;32359;53267;27665;178301];
[92162;1;1;5;3;13;9;91;187;173;525;1675;2217;4093;2009;16917;18485;104849;163233];
[92186;1;1;1;11;3;17;125;157;9;429;1573;2257;7943;9893;5611;64619;4509;200181];
[92191;1;3;1;1;3;9;83;53;315;85;1093;2621;663;12369;317;6089;16479;225071];
[92192;1;3;3;1;25;47;57;45;219;45;945;3989;4889;8989;381;52483;57029;253899];
[92207;1;3;3;5;3;61;75;189;53;489;553;2381;7485;9941;29733;2611;74119;203647];
[92260;1;3;1;11;27;63;53;61;59;613;465;867;1985;7605;14301;53847;68547;14717];
[92282;1;3;5;11;5;41;51;11;59;761;59;267;7273;3061;11223;48825;117869;158551];
[92288;1;3;7;1;31;47;111;43;435;997;135;3369;6439;5637;13629;13221;90607;86359];
[92297;1;1;1;11;23;51;109;223;495;765;1557;3545;305;4949;23931;45115;12121;14487];
[92303;1;3;5;9;5;25;41;249;27;375;1339;3647;3529;2077;21091;45523;67191;1257];
[92315;1;1;3;7;13;15;63;45;187;761;1245;3381;1817;2491;16469;64417;87333;143103];
[92322;1;1;3;13;11;33;87;11;279;689;1047;3935;5359;11309;19735;33259;12347;183653];
[92327;1;1;5;7;5;49;109;221;455;167;785;1859;4337;14937;209;23435;22923;172985];
[92341;1;3;7;9;13;7;127;117;147;741;531;2627;2565;11083;30577;42471;77065;120983];
[92389;1;1;7;1;5;61;115;203;15;305;1005;2085;2597;4371;11661;33219;53657;40325];
[92390;1;3;7;13;13;15;69;167;369;747;1115;1493;4881;2693;32281;27089;56821;121693];
[92422;1;3;5;3;19;51;101;29;411;509;847;1033;4135;15561;7045;60757;48479;247295];
[92439;1;1;5;3;27;47;103;123;413;71;689;2113;4347;1983;25727;20095;3271;133081];
[92452;1;1;3;3;5;39;87;27;505;631;689;2591;1955;3205;12681;10821;13343;101505];
[92470;1;3;7;9;31;23;103;223;499;721;13;1399;7369;3945;27727;7923;60265;197793];
[92473;1;3;3;5;27;7;119;23;371;495;1583;3913;5139;12151;17477;10907;121775;13369];
[92493;1;3;7;1;19;53;91;235;161;97;37;1115;5909;1943;8137;1541;16253;252151];
[92508;1;3;7;5;3;1;107;241;187;253;1225;2827;4191;2749;25629;47465;19969;45035];
[92517;1;3;1;5;1;29;47;233;175;313;793;2089;6235;6595;27599;20505;63379;8729];
[92529;1;3;7;11;15;9;87;113;389;1;1057;3307;3455;1847;1497;28115;92897;2383];
[92551;1;3;7;13;19;59;45;59;49;273;1619;1975;5949;9951;7685;52559;42377;29855];
[92557;1;1;3;9;19;7;119;35;85;37;269;3443;8015;8061;6001;19123;70643;115513];
[92596;1;1;3;15;3;19;83;171;259;207;1495;513;5455;4071;27471;15773;66301;228743];
[92611;1;3;7;9;3;27;93;3;471;13;677;4067;1941;15345;26629;29419;121593;108669];
[92613;1;3;7;15;29;43;97;41;15;181;1969;1901;7237;3879;19337;17659;17957;164667];
[92642;1;3;1;1;25;33;7;41;387;469;795;781;113;4161;29687;32225;73905;137879];
[92666;1;1;3;13;9;59;89;23;393;111;1957;719;6179;16183;31331;48015;32147;31691];
[92684;1;3;7;5;9;45;73;219;181;51;717;1813;2581;1395;17595;23689;89709;201451];
[92723;1;3;7;3;1;21;15;35;131;515;803;1429;3855;349;11795;26787;6109;117745];
[92732;1;3;3;9;7;11;57;15;491;371;1787;85;577;11455;27419;20687;2493;209993];
[92738;1;3;7;15;5;5;87;197;93;643;247;31;357;7377;10509;29883;42747;248861];
[92783;1;3;3;3;29;33;47;253;485;25;2003;2953;1629;11549;5697;1135;117761;96411];
[92808;1;3;5;1;29;5;27;187;235;423;41;1855;4359;15627;28409;49331;37735;68823];
[92816;1;1;5;5;21;61;67;85;41;671;1617;3867;7913;1693;18487;1831;100971;168191];
[92835;1;1;7;3;1;61;111;87;55;229;217;2801;563;13617;9641;22247;16039;113541];
[92847;1;3;5;7;5;29;67;99;91;561;1203;643;2607;13421;29695;31925;82985;69031];
[92879;1;1;1;1;27;7;63;107;269;163;1711;587;5657;15077;24709;10235;95483;94799];
[92881;1;3;3;5;29;5;127;137;67;609;1657;1131;959;15773;17295;58575;96525;80529];
[92884;1;3;7;7;25;15;89;93;145;695;367;2853;3073;4867;26823;31467;94769;9145];
[92932;1;1;7;15;15;5;1;225;57;381;1295;2525;1493;2401;91;19809;32803;195289];
[92935;1;3;3;7;29;51;29;63;249;107;1689;3703;7227;6967;27861;39167;20043;218827];
[92960;1;1;3;13;17;1;77;143;167;255;1709;2089;7465;4805;16185;15167;20493;240855];
[92990;1;1;5;1;11;43;107;175;93;955;615;2923;3637;7451;18847;53467;12463;127249];
[93010;1;1;3;13;31;1;61;113;479;777;1805;3625;6299;12221;29599;60175;31165;122815];
[93025;1;3;3;11;11;29;89;129;195;337;1843;2769;1747;7137;9901;18459;25215;70609];
[93046;1;1;3;7;17;35;55;81;413;25;1505;2185;3121;11435;17885;12543;36767;64039];
[93085;1;3;1;13;25;9;83;25;5;49;1975;3967;4135;13213;26479;63913;14921;96193];
[93089;1;3;7;5;17;15;101;47;245;821;1275;3343;5471;5045;31741;3319;8141;95501];
[93096;1;3;1;13;1;5;105;39;175;439;1625;249;4859;12449;30529;45669;49071;214037];
[93145;1;1;7;7;17;21;83;123;261;559;1967;2933;4417;8331;10119;21793;128729;187247];
[93155;1;1;7;9;15;43;77;231;241;419;503;3335;927;2567;31259;52453;114441;257449];
[93169;1;3;3;1;9;29;21;89;311;185;519;271;3595;8951;6105;64593;38209;120491];
[93179;1;1;7;9;1;57;65;5;275;615;801;2839;2851;15609;28731;31223;87725;437];
[93184;1;3;3;5;29;3;67;53;17;499;263;651;7963;5371;11593;34761;57427;84979];
[93204;1;3;7;11;15;9;33;165;313;659;909;969;2309;2197;27263;35273;52887;236107];
[93211;1;1;7;1;13;17;29;3;329;573;619;1013;6947;7031;30773;41129;116481;184233];
[93213;1;1;5;9;13;5;87;235;63;759;1143;1861;3783;2735;26191;64387;3651;119447];
[93227;1;1;3;7;15;41;117;135;273;655;251;1859;4363;14725;29385;6269;91505;82679];
[93285;1;3;7;3;13;21;21;9;121;899;199;1973;7437;9771;26647;30909;118573;152913];
[93292;1;3;3;9;31;43;5;249;109;183;161;1185;4025;10331;20983;28549;122687;183429];
[93320;1;3;7;7;11;45;111;99;487;971;597;1555;273;10403;25289;45483;35845;35791];
[93356;1;1;1;7;11;49;125;229;279;289;1945;3575;5683;15659;31123;12517;79303;255797];
[93371;1;3;1;15;9;23;61;53;383;855;1743;407;4401;7507;26307;56205;110943;184183];
[93374;1;3;5;13;23;29;101;243;417;925;1267;257;5893;4335;6309;43519;126035;99205];
[93385;1;3;1;5;5;35;83;25;31;455;1799;2919;7037;11829;12239;12969;108469;89513];
[93403;1;3;5;9;17;29;61;217;183;131;425;4025;7141;5445;21497;10603;53423;5701];
[93406;1;1;1;15;27;35;9;139;261;43;587;3835;4627;11689;15739;6031;73547;134271];
[93427;1;1;3;3;25;15;7;225;29;785;2047;2219;6083;7973;17053;56167;83915;87597];
[93451;1;3;7;15;13;43;85;121;421;867;1895;2437;6003;5269;8625;26877;100023;110229];
[93454;1;3;3;3;25;49;121;1;125;353;1811;1575;3925;13897;26087;24977;105995;242817];
[93472;1;1;1;9;31;55;71;241;439;927;955;109;7779;2397;18797;34177;1255;178671];
[93482;1;1;7;7;5;15;99;225;49;407;1711;4027;4845;9209;20983;33969;14205;9351];
[93507;1;3;5;1;9;13;113;143;97;189;929;1163;2261;9761;30011;32911;117043;169493];
[93537;1;1;3;5;9;35;95;77;5;95;1745;2013;7009;5427;18969;2771;5099;52939];
[93562;1;3;7;9;13;19;31;189;367;569;95;1665;6231;2169;22589;8427;116097;41077];
[93564;1;3;7;3;31;61;45;233;327;541;87;3449;2767;12237;17747;53827;80389;121489];
[93608;1;3;7;15;31;1;49;73;157;131;553;3417;5283;4737;31675;63213;43689;261869];
[93636;1;3;7;1;3;5;113;43;343;39;135;1555;7955;9851;30983;21955;34871;147649];
[93640;1;3;5;3;5;27;15;179;141;983;265;2651;5907;10501;6275;29629;115965;125745];
[93653;1;3;7;13;1;1;81;105;309;457;1817;3435;4615;1181;27835;26075;63447;44701];
[93654;1;1;5;5;25;19;85;103;409;323;2001;3719;3403;1301;19615;47829;109905;65777];
[93664;1;3;5;3;21;15;47;75;467;273;1885;3929;1877;5209;6881;34431;35663;100205];
[93676;1;1;5;3;3;9;47;143;471;653;1011;2263;3673;11921;31207;50365;27177;214377];
[93721;1;3;1;15;3;43;81;253;495;139;679;2207;4603;5269;27133;46461;120783;185595];
[93740;1;1;7;3;13;3;109;197;477;101;859;1035;777;10153;15581;22715;17493;120851];
[93743;1;3;1;3;23;5;121;67;265;935;741;3311;541;1093;1639;5941;5587;150345];
[93745;1;3;1;5;3;13;65;173;493;303;359;3813;6007;1105;12185;10431;17117;164899];
[93751;1;3;3;1;25;33;71;181;149;7;333;1981;2981;14683;10997;63373;22605;119681];
[93770;1;1;1;15;29;35;89;21;281;175;587;3117;7221;8239;26399;49133;65895;142175];
[93796;1;3;7;15;9;9;35;161;65;749;421;3575;6307;2029;11423;63901;102049;26333];
[93820;1;3;1;13;1;45;97;41;231;245;271;1497;3119;6225;21665;12113;67315;62779];
[93824;1;1;1;7;3;29;119;193;179;353;1015;2803;6869;7653;22309;53421;86969;115549];
[93833;1;3;3;5;17;37;49;129;195;537;1237;2775;6683;699;19181;61125;27483;175645];
[93841;1;3;7;3;7;49;107;41;285;335;1415;4015;1301;6525;32429;9337;87923;176751];
[93847;1;1;5;9;21;43;91;25;225;311;417;303;2629;3609;29987;28647;104173;52383];
[93848;1;3;5;9;13;47;75;143;109;173;503;3843;1767;9433;10009;5653;87339;212975];
[93854;1;3;1;13;13;55;123;95;499;245;1875;3661;7661;6927;21003;51729;88089;89063];
[93882;1;1;3;1;31;7;93;35;169;191;1079;2137;4401;1563;20021;9101;66881;231589];
[93943;1;3;1;15;21;41;75;231;459;701;1715;2581;4445;5877;4765;1037;15827;189529];
[93958;1;3;5;13;17;23;41;133;143;297;1335;3907;7745;5139;9397;5765;5347;243091];
[93972;1;1;5;13;7;15;31;183;315;153;785;2723;97;14361;10509;17717;46615;133289];
[93975;1;3;7;9;13;3;75;103;445;409;603;201;1873;9277;23953;6881;64327;196771];
[94003;1;1;7;13;15;21;73;183;419;997;857;1373;3855;417;10175;5253;66509;15731];
[94009;1;3;3;9;19;7;15;119;497;25;1165;105;2605;15097;28241;2269;519;235655];
[94020;1;3;3;9;27;9;103;205;97;317;1621;971;931;9099;24583;12695;122399;78021];
[94072;1;1;3;5;27;45;41;239;87;603;317;3507;7677;9141;26721;40225;80515;205263];
[94081;1;1;3;1;25;3;63;165;41;783;291;1997;3769;1881;30613;18821;86175;38837];
[94093;1;1;3;5;17;19;95;17;357;587;689;3127;6999;6703;23923;55945;97629;210177];
[94102;1;1;3;15;21;55;63;229;397;1007;779;2105;681;10659;26679;681;115901;83627];
[94122;1;1;7;11;25;9;47;133;109;17;697;749;5529;9289;29675;2631;15247;13913];
[94135;1;1;7;7;3;55;29;13;467;889;675;1187;3301;13721;13783;44559;78177;114219];
[94136;1;3;5;13;15;11;77;71;313;427;1385;2007;4003;1529;4797;12289;24897;129513];
[94150;1;1;3;11;9;47;103;253;345;659;1109;3493;2515;5669;30551;25077;97393;252689];
[94184;1;3;7;9;25;19;69;161;365;51;1365;1045;4319;10035;15529;23251;44359;62163];
[94187;1;3;1;7;3;25;119;33;19;561;659;2741;6177;899;30911;9627;83003;12939];
[94258;1;3;7;1;13;37;19;161;427;621;1045;1963;6067;4439;32507;32775;5201;144645];
[94264;1;1;5;7;31;17;89;239;317;109;1827;1395;1587;14813;29911;63545;22939;235383];
[94272;1;1;7;15;1;17;41;123;405;539;1063;1443;4611;1847;24107;29365;85859;218601];
[94278;1;1;5;13;21;27;101;223;245;705;1579;679;5461;8955;15031;7731;31219;165033];
[94281;1;1;7;11;19;29;13;223;179;481;761;1543;3195;10695;17147;37577;130901;44699];
[94317;1;1;7;3;19;53;49;1;393;583;1183;2817;1293;12949;15491;44467;86261;220439];
[94348;1;3;7;15;15;47;7;125;467;511;1207;3787;5575;5359;3859;29933;104627;243073];
[94376;1;1;1;13;27;25;17;243;477;457;1835;2859;1023;10107;26829;49853;114569;250471];
[94382;1;3;1;15;11;43;15;235;431;671;1935;1143;4121;15403;19313;15919;111961;50455];
[94387;1;3;3;3;11;45;107;143;353;671;1259;1599;6075;10645;9131;28133;58679;29883];
[94389;1;3;5;15;15;43;29;171;303;71;1751;411;7615;12063;26829;31469;34335;3163];
[94393;1;1;7;7;25;63;25;25;27;671;505;1235;1985;2593;30031;3251;94729;248911];
[94402;1;1;3;1;19;15;125;133;133;209;1749;2091;6325;1275;5675;2249;22631;56293];
[94421;1;1;5;1;19;27;25;99;211;739;565;3903;7701;7547;12303;5421;24663;22807];
[94422;1;3;5;13;5;45;99;67;21;269;851;3333;4555;12483;14645;44757;99047;198521];
[94431;1;1;5;13;19;1;123;87;109;799;591;2997;1005;16369;10329;34541;100935;200397];
[94473;1;3;5;1;13;51;93;23;19;23;965;171;6865;3561;23255;44295;87405;222269];
[94487;1;1;3;5;1;53;25;129;123;737;271;61;113;8481;27075;58633;21499;156689];
[94504;1;3;3;11;3;43;11;123;243;1015;1389;3663;1725;6933;5315;7137;127705;56607];
[94510;1;1;5;13;7;23;43;103;503;173;267;1509;3311;9553;28851;15771;28741;236427];
[94522;1;1;5;15;27;43;119;3;13;107;317;3725;6669;4945;30485;10155;96893;154081];
[94532;1;3;7;5;11;21;61;99;155;45;569;1325;673;15803;12047;55431;9515;106969];
[94572;1;1;7;11;27;49;121;145;105;223;1471;1163;3889;4213;21195;45649;14663;82799];
[94589;1;1;3;3;31;21;17;85;31;695;1591;2465;907;11621;29681;13131;77187;175913];
[94599;1;3;5;5;21;49;77;229;359;825;1851;1223;3351;5349;30971;20797;26975;94425];
[94603;1;1;3;1;3;63;23;219;503;47;1675;1641;5257;8035;29793;30093;44897;235691];
[94647;1;1;7;9;27;37;109;33;511;203;1195;3281;407;15237;28485;21379;106325;231755];
[94665;1;3;1;3;9;45;19;31;255;799;909;767;421;3301;18557;15043;48505;36763];
[94695;1;3;7;13;1;45;59;233;319;265;517;1571;4593;12813;30729;19517;70345;142411];
[94716;1;1;1;13;17;15;79;93;265;381;285;253;919;3715;30555;38801;30439;51511];
[94738;1;1;7;15;25;39;71;57;145;487;1655;2589;7655;8413;24537;36761;36427;88929];
[94740;1;1;3;3;29;41;61;191;97;849;911;3269;5425;13997;7749;537;113705;179765];
[94778;1;1;5;9;13;55;33;221;27;521;13;2847;6035;8397;6579;29353;101953;88983];
[94803;1;3;3;13;31;47;97;177;373;353;159;249;4741;7427;8353;38617;13857;122081];
[94810;1;3;5;15;13;21;1;239;369;253;1009;1927;5111;2219;28167;32013;51487;210521];
[94815;1;3;5;9;17;21;37;105;405;39;321;1515;3759;15469;13643;60157;72127;233505];
[94821;1;3;7;5;1;3;3;125;283;757;829;2303;3715;6027;17795;37359;54721;5891];
[94862;1;3;7;15;27;63;117;101;341;965;1543;51;3397;14051;9889;64647;111169;249477];
[94886;1;1;5;13;5;29;51;61;233;685;751;163;2319;14691;29881;39029;57093;240147];
[94900;1;3;5;3;9;21;107;147;263;471;621;3485;197;13271;24689;64341;110163;142711];
[94924;1;3;1;7;1;23;17;31;131;631;795;3751;5337;9151;2873;31113;65303;244969];
[94952;1;1;5;11;3;51;93;155;389;859;1181;2711;1375;6119;229;47767;115521;114129];
[94963;1;3;3;15;5;7;29;187;259;911;1537;1885;6139;4549;21655;58771;1003;124609];
[94970;1;1;3;15;25;45;97;217;331;305;1105;3465;3651;10171;31601;6947;4545;232627];
[94980;1;1;5;5;9;53;109;201;473;201;1113;973;1825;13089;1207;9947;92515;216199];
[94992;1;3;7;3;1;49;25;109;249;489;1663;3493;4615;13899;27851;60711;14351;41787];
[95017;1;3;3;7;3;15;29;53;61;669;371;2187;6769;4623;25785;12997;52263;28387];
[95028;1;1;1;3;9;31;69;3;441;219;285;183;1971;10903;8271;19389;61913;203537];
[95031;1;1;5;3;9;63;117;131;53;525;1349;2701;1317;6047;1661;51785;93199;158645];
[95035;1;3;5;3;21;61;11;91;317;635;61;1919;2139;12817;6587;63201;52659;8971];
[95040;1;3;1;9;11;47;49;35;115;711;511;835;3787;837;15737;7467;53263;132047];
[95058;1;1;5;3;27;47;121;211;65;363;1067;3813;6353;13701;23943;7573;112721;219587];
[95079;1;1;3;7;21;39;15;199;113;517;1429;1399;6007;1389;16425;17709;1231;51803];
[95122;1;3;5;11;5;37;35;97;215;281;517;1777;4171;10161;18369;23233;83005;75519];
[95149;1;3;7;9;3;9;69;111;135;351;971;3551;3739;3571;22861;62669;83723;10707];
[95150;1;3;3;5;31;35;103;205;321;553;409;363;4085;7735;5513;64249;127883;147839];
[95167;1;1;7;3;23;35;85;231;251;237;421;757;7081;11247;24941;22649;51111;157383];
[95175;1;3;7;5;23;35;7;101;491;529;1437;489;5057;12955;27543;60903;104151;42545];
[95205;1;1;3;15;23;53;85;89;247;269;1555;3789;467;11145;11751;44343;120117;9975];
[95229;1;1;5;3;29;49;123;179;311;45;1839;2725;7307;5525;32075;7979;107751;133677];
[95321;1;1;5;3;31;21;65;229;31;597;755;2653;2699;2075;11693;28953;55811;13653];
[95345;1;1;1;7;25;51;119;21;245;493;407;2997;4255;15487;26359;24153;42955;142191];
[95364;1;1;5;3;27;61;13;209;13;401;399;2909;3623;8057;21301;32273;112127;210221];
[95379;1;3;5;13;3;19;121;19;57;583;947;3591;5283;10831;20429;54097;7559;112465];
[95386;1;3;5;1;21;1;125;245;217;165;1319;2119;4641;9481;4147;7079;119015;128401];
[95395;1;1;5;3;3;31;25;63;17;191;497;819;1515;11215;24961;7679;125801;239521];
[95416;1;1;5;1;3;25;27;43;37;863;739;2585;773;799;17649;21171;123541;164777];
[95419;1;3;5;7;7;25;15;251;305;159;1941;3655;2881;15123;10911;35541;62221;175845];
[95433;1;1;1;9;19;5;103;1;417;951;139;2413;2983;15471;9495;41349;110175;29501];
[95464;1;1;1;5;29;53;95;173;211;803;1599;4093;5559;15855;12271;12583;102221;203453];
[95490;1;3;5;5;19;43;31;175;493;289;1865;2925;3833;11327;23337;62669;99485;230583];
[95496;1;3;3;11;11;25;95;215;501;421;725;1571;2133;2761;8649;45359;88851;55057];
[95504;1;1;7;7;21;45;69;63;399;929;1431;3397;3613;14595;10417;62913;106283;120869];
[95513;1;3;7;15;13;45;11;177;125;611;1115;2441;2689;12517;8989;34991;23789;51543];
[95523;1;1;3;1;3;15;5;125;511;137;1919;2953;5267;3543;5485;7463;130407;255945];
[95525;1;1;3;7;7;21;95;97;51;91;813;2819;2839;12041;26197;20143;51403;171337];
[95558;1;1;1;1;7;27;15;125;441;387;1869;2157;5863;581;893;58827;104063;93735];
[95572;1;3;3;7;27;9;79;97;465;207;931;2809;2225;13749;18819;30605;9829;130743];
[95591;1;3;5;13;31;41;19;147;293;725;297;397;1343;12669;15339;58599;12113;149835];
[95609;1;3;3;13;27;13;121;253;349;229;915;1673;3819;77;20691;53823;78265;138743];
[95619;1;1;5;5;29;41;65;235;123;871;1809;3013;3531;1551;8441;23481;58729;117639];
[95625;1;1;7;5;23;55;89;81;201;313;1307;2427;2025;8543;26631;58655;122095;247579];
[95633;1;3;1;5;3;63;89;219;449;9;1771;2915;5925;13773;26119;61309;65107;33001];
[95649;1;3;7;1;27;11;25;221;139;665;1543;2157;7617;9135;567;64985;88749;54223];
[95652;1;1;3;9;13;41;7;99;483;115;1499;3343;7207;1805;16031;63707;8555;90959];
[95655;1;3;1;9;15;53;41;239;295;47;1645;1095;5163;7739;26635;28245;9315;100629];
[95696;1;3;1;5;1;19;69;5;171;669;673;633;6895;7571;11539;25133;99235;7991];
[95721;1;3;5;11;21;37;63;77;281;307;1711;2671;1315;14683;28757;22751;56477;190805];
[95766;1;3;3;5;15;1;5;21;199;161;655;1263;3315;16051;2409;773;9075;121265];
[95772;1;3;3;3;7;23;71;195;11;263;1845;165;3489;447;11315;23861;110949;78909];
[95775;1;1;7;5;1;53;37;9;439;135;909;457;6993;11401;14065;30795;56149;168013];
[95794;1;1;1;15;23;37;13;87;113;251;233;725;7757;14399;3023;54277;87879;54053];
[95796;1;3;5;11;11;57;109;171;171;17;343;2749;6525;9735;11715;23783;54439;82819];
[95818;1;1;1;15;3;47;73;237;399;301;947;2055;1909;14105;26893;47805;25;172957];
[95820;1;1;7;7;11;27;93;167;117;637;351;319;4605;12897;31001;39655;53551;246113];
[95832;1;3;5;15;3;37;25;9;421;519;257;3251;1649;4069;999;59367;112383;32095];
[95842;1;3;7;7;25;57;11;37;271;545;1213;1927;6471;5145;22995;51051;126981;260457];
[95851;1;3;5;11;1;61;77;201;395;199;477;103;4069;7003;26371;49145;103839;195661];
[95854;1;3;3;9;13;41;25;125;161;371;179;351;7169;7179;21627;57793;104679;158583];
[95859;1;3;7;11;5;7;111;163;201;783;189;273;2751;13917;28501;18261;12755;15521];
[95868;1;1;5;7;3;37;121;209;503;299;1301;3703;2321;99;14953;28087;85059;256911];
[95881;1;3;3;13;3;29;95;249;383;971;1291;13;1587;3447;26477;15837;111141;73899];
[95895;1;1;7;1;17;57;31;1;219;329;19;3841;1829;5179;14945;6625;3783;200583];
[95943;1;3;1;3;1;31;23;17;209;383;297;3065;4323;7847;30189;56541;57535;24853];
[95949;1;1;3;11;31;35;125;141;251;79;161;775;2455;6959;26433;39145;26563;665];
[95978;1;1;7;1;11;9;9;211;231;723;1337;1713;3779;2001;23451;27107;64297;254943];
[95980;1;3;7;15;21;55;19;159;449;837;1259;1851;5061;355;21531;63479;114657;139265];
[96010;1;1;1;3;11;55;103;179;363;567;421;981;7221;2077;19339;1155;67019;218231];
[96020;1;1;7;11;3;43;55;161;347;995;1555;3251;1605;13313;4499;19361;60145;71593];
[96024;1;1;5;3;9;15;119;213;455;241;857;683;1247;13085;23919;20365;16303;73263];
[96063;1;1;3;13;25;17;45;193;375;289;1381;3629;3015;15883;20633;7431;108787;233297];
[96108;1;1;1;15;21;57;105;91;233;961;1623;3849;711;3857;32657;5935;85113;38287];
[96125;1;3;3;3;15;31;97;217;335;385;1661;3927;6849;137;28871;56485;32777;260033];
[96154;1;1;3;13;5;61;19;255;123;481;1865;1815;3047;173;25363;1277;6453;174405];
[96172;1;3;7;13;27;9;19;21;433;857;1931;2927;629;7733;13503;48263;67517;26495];
[96189;1;1;1;3;5;43;61;239;81;585;187;1123;3319;8699;20925;40815;76575;169383];
[96204;1;3;3;3;9;49;71;225;95;365;645;237;7829;5727;17031;58971;71415;232423];
[96219;1;3;5;9;25;49;113;47;105;609;1557;2099;2129;8663;24811;25505;38153;185821];
[96256;1;3;5;13;23;55;107;17;309;807;635;1007;6207;3363;7607;25013;4141;171509];
[96261;1;1;1;13;27;35;31;89;109;879;1845;3999;5415;8777;9605;29703;28149;36469];
[96289;1;3;1;3;13;3;51;31;479;549;1245;2033;961;13893;21829;32791;109497;187425];
[96292;1;1;5;3;19;5;25;187;173;869;201;3851;7369;6229;16577;45623;19859;209855];
[96296;1;1;7;9;1;9;53;47;289;557;999;141;3789;3087;30217;24221;81431;157507];
[96324;1;1;3;9;1;25;11;73;155;155;621;4047;6759;5641;28147;8523;69439;92613];
[96345;1;3;1;5;25;23;41;79;71;793;1381;307;7863;16289;28783;5299;128481;222799];
[96346;1;1;7;1;17;33;117;111;15;249;1397;1349;4883;6009;3179;33509;56355;31937];
[96358;1;3;5;13;29;15;41;185;91;501;571;2889;6901;3875;3737;23657;101587;261181];
[96386;1;1;7;9;21;49;33;143;19;203;75;1353;585;7719;11311;48989;10803;51743];
[96412;1;1;7;13;23;31;103;209;375;817;1461;3657;7931;15893;15065;28721;54299;71147];
[96428;1;3;7;7;7;25;37;173;355;499;247;459;7701;2219;11703;20631;128857;125367];
[96445;1;1;3;5;25;61;43;135;451;667;547;443;5071;12671;26975;20131;101545;115281];
[96446;1;3;3;5;9;19;75;133;211;585;1283;3397;3181;65;20213;47725;101883;194749];
[96448;1;1;1;1;19;13;75;135;111;641;765;1631;4711;241;15125;38233;95535;177965];
[96458;1;1;7;13;31;1;91;61;299;35;1327;3903;6193;5589;6331;6321;105741;89639];
[96475;1;3;3;15;1;55;11;39;171;713;973;1827;3487;13057;30775;16881;124989;208193];
[96482;1;3;7;1;21;29;19;75;397;755;1601;2907;6861;10377;23127;2443;86545;3841];
[96494;1;3;1;11;25;33;53;195;343;425;1523;3051;3115;3205;3457;20521;39187;33307];
[96502;1;3;5;1;25;23;47;5;133;511;1549;2691;7861;4987;2877;38693;37491;22481];
[96508;1;1;5;15;5;55;125;231;11;451;1443;3865;4115;2379;13675;29953;85721;114859];
[96511;1;3;1;15;19;37;29;75;483;785;1933;2435;1811;2787;32653;23159;80993;26867];
[96516;1;1;1;15;7;27;53;99;11;693;1085;743;939;6461;6391;45913;94037;217039];
[96520;1;3;3;9;19;37;93;77;363;125;1675;347;5599;7771;23549;39945;106931;127959];
[96547;1;3;1;5;27;47;107;85;31;621;1529;2349;7055;889;4663;1705;40011;214775];
[96556;1;3;1;5;11;47;35;13;139;783;1009;845;4139;14713;24191;17597;124923;219657];
[96561;1;1;7;3;3;25;63;207;361;587;763;3027;6523;6783;11203;57313;115397;149921];
[96568;1;1;7;1;21;55;109;183;487;869;195;83;3675;13103;12383;63519;48379;256443];
[96581;1;3;7;13;9;21;29;163;105;871;747;2459;7383;439;5223;1655;1469;50345];
[96582;1;3;1;1;15;63;37;159;385;795;1369;1973;6119;6027;23913;52475;80827;198261];
[96679;1;3;3;11;15;5;121;231;43;907;1621;3895;5075;10865;3123;49657;69827;215813];
[96683;1;3;1;15;7;41;75;105;87;899;629;1699;5861;9279;30107;37443;7555;64461];
[96717;1;3;1;7;9;15;119;127;121;621;1117;1659;605;13705;31181;40063;17257;77645];
[96754;1;1;5;5;3;37;95;237;379;375;903;257;4425;14191;9185;57133;82067;73521];
[96769;1;1;7;15;1;43;63;45;121;669;1775;179;7385;3557;17261;379;24759;214831];
[96799;1;1;3;9;31;5;43;153;451;573;1623;2831;4483;7219;27657;47111;58165;145799];
[96805;1;1;3;11;3;11;111;83;329;807;779;1223;6095;7269;22425;19343;11937;10173];
[96809;1;1;1;13;27;15;7;111;37;663;51;3759;6321;8253;737;59501;109595;177827];
[96823;1;1;3;3;29;39;79;115;307;765;331;377;1873;14491;11065;11865;76717;29101];
[96829;1;3;7;3;21;45;97;213;309;3;483;3933;1043;8519;22517;34675;78819;172479];
[96832;1;3;5;3;31;51;27;137;405;427;815;43;6551;10971;28589;53077;36639;167661];
[96850;1;3;1;3;29;5;111;19;343;21;557;4067;1525;12793;11513;48869;78035;171531];
[96856;1;1;5;7;25;47;53;245;135;137;1697;2057;3147;15903;26979;2157;43967;207661];
[96906;1;1;5;3;25;11;15;59;511;307;757;3275;1299;10373;11943;54169;32417;21645];
[96962;1;3;3;11;15;15;5;137;237;741;1613;3565;7359;6181;25953;18137;59759;186693];
[96974;1;3;5;3;19;13;99;167;45;71;1683;3635;7603;14879;23903;14795;58395;11853];
[96979;1;3;1;7;15;45;111;111;175;567;1031;2255;3895;11861;20195;15461;88411;225713];
[96997;1;1;7;3;5;5;85;65;231;643;1591;219;2929;4845;29327;14769;46629;131367];
[96998;1;1;5;9;29;21;47;87;113;469;1647;2461;3663;5865;6647;41345;39539;220301];
[97002;1;1;5;11;9;55;5;147;141;181;283;1695;6537;11095;10385;36013;111653;182273];
[97054;1;1;3;5;17;45;103;253;407;151;1585;1585;6661;14579;5723;37641;56813;258819];
[97064;1;3;3;3;5;63;85;201;87;419;1993;737;5859;6049;17393;9453;65915;1731];
[97067;1;1;3;3;3;27;97;135;137;731;1559;3409;5973;15981;19833;8419;33273;44155];
[97110;1;3;3;9;31;55;109;191;119;59;645;1047;7767;8379;13781;52289;31605;186667];
[97116;1;3;1;15;9;1;23;31;23;311;1879;1939;5509;14573;10501;38867;39131;231151];
[97137;1;3;7;1;31;33;33;19;475;723;795;1793;6639;14349;16639;31473;110411;95703];
[97138;1;1;5;9;11;3;39;119;455;839;513;2423;2219;6059;6125;60995;117701;204057];
[97143;1;1;1;9;5;23;87;33;59;241;1427;3867;1091;14683;21651;7091;38011;63809];
[97183;1;1;7;15;15;23;75;227;415;1015;2033;1311;6659;5093;14799;65331;96989;170395];
[97187;1;3;5;15;25;61;33;179;503;875;1853;257;6727;9117;16777;29585;110901;231617];
[97190;1;1;1;15;13;53;73;151;315;887;669;3959;5279;1461;15497;40107;9595;252059];
[97202;1;3;7;13;17;45;43;61;99;555;981;3255;6385;8723;24451;45243;68617;171911];
[97219;1;3;3;11;1;29;97;219;341;597;503;773;3777;5431;4581;37169;57269;186377];
[97239;1;3;1;11;15;49;119;189;279;821;1541;1343;4379;5833;26537;29769;121125;202553];
[97245;1;3;5;9;19;23;5;197;323;101;1155;7;5933;3111;19595;36807;40147;153];
[97246;1;1;5;11;17;9;83;51;185;415;367;1431;7803;8253;16283;54545;99733;57777];
[97249;1;1;5;7;5;31;41;13;33;531;1381;781;1699;6321;18125;34567;113253;104181];
[97264;1;3;1;5;1;59;37;239;343;395;121;2181;2485;13825;19127;22689;103023;198213];
[97267;1;3;1;15;29;17;11;27;413;273;1805;2845;8147;10301;5423;29859;85243;190379];
[97269;1;3;1;15;7;61;29;135;273;951;725;1345;4231;13651;31291;6081;85735;96023];
[97274;1;1;3;11;15;29;81;129;245;295;527;3905;4323;5447;21253;51177;105105;48323];
[97282;1;1;3;13;13;45;71;43;383;95;1689;639;4631;15113;28053;49247;128303;183999];
[97287;1;1;1;3;19;31;93;35;369;765;1201;1625;7683;8719;13843;42723;62323;49431];
[97294;1;3;3;11;5;39;49;217;109;63;1753;2489;6017;403;16657;59577;80255;66071];
[97299;1;3;5;5;11;1;79;37;261;537;1845;3567;3233;16249;9795;2471;69661;118231];
[97306;1;3;3;1;19;61;35;253;31;19;161;2597;5733;8231;26569;38613;121945;137391];
[97347;1;3;7;3;15;25;125;231;187;797;1237;1767;1557;1095;13613;43325;33801;127881];
[97361;1;1;1;9;23;63;75;107;311;493;471;2985;1861;4285;27125;14961;122567;152033];
[97371;1;3;5;7;9;7;43;117;203;727;101;3831;3201;2327;4675;12085;25131;211835];
[97435;1;1;7;11;17;1;5;87;291;1023;1345;3879;7739;9201;19573;20037;128711;187263];
[97466;1;1;3;13;25;39;71;251;365;617;1539;2121;3803;8003;23393;56991;56143;223453];
[97473;1;3;5;13;25;61;71;139;319;399;903;3063;3667;275;13297;25285;120417;169613];
[97474;1;3;1;9;9;41;59;213;195;705;313;2313;4993;323;24049;30527;27287;80489];
[97559;1;1;5;1;29;57;107;161;217;295;721;3857;1935;14981;12243;38541;51177;248889];
[97565;1;1;1;15;5;25;95;137;11;215;971;1573;4341;4725;8201;33147;87687;187405];
[97587;1;3;3;9;9;13;31;3;175;309;145;2265;4863;7199;23881;15445;123753;126653];
[97611;1;1;7;3;7;43;51;191;21;639;939;691;7823;10529;7757;9291;115045;51539];
[97622;1;1;7;13;7;45;91;173;73;779;1647;2059;1373;16027;4611;45787;699;78905];
[97625;1;1;5;15;5;23;123;45;265;1009;235;1343;5779;209;23263;63163;26079;240905];
[97632;1;1;1;11;19;31;75;105;71;21;1361;2125;6949;2111;10333;61881;112811;85723];
[97635;1;3;5;7;27;17;95;35;503;181;1885;1097;6019;13745;15009;26343;117727;93017];
[97652;1;1;3;11;27;41;109;23;365;283;1509;3269;5969;14567;27715;429;65813;169391];
[97672;1;1;5;9;11;1;23;143;401;61;993;3029;1901;12947;10439;48661;113863;9353];
[97678;1;3;7;3;15;27;123;51;403;569;75;3837;8167;10875;29861;44133;52385;185515];
[97683;1;3;3;15;15;45;3;77;439;265;103;3715;7889;9241;26511;19063;108239;237233];
[97695;1;1;5;13;7;47;7;185;155;833;1895;1103;6761;4307;19551;2371;41079;207663];
[97705;1;1;3;7;1;49;79;127;149;383;919;3787;6703;8823;15551;28397;11497;144227];
[97713;1;1;7;15;7;5;9;161;425;275;1943;3003;3615;1417;587;20949;9651;101257];
[97719;1;3;5;11;31;11;113;201;113;889;867;3537;7173;3403;4713;29709;50127;55893];
[97757;1;3;7;11;11;17;123;97;3;1009;1567;3261;8053;4639;24493;64085;73975;123965];
[97761;1;1;7;1;31;7;111;137;427;615;865;2243;3603;5943;1639;22213;81977;77283];
[97762;1;1;5;11;25;63;5;19;67;469;621;2831;1635;11859;23143;29189;43955;87475];
[97771;1;3;7;15;7;61;125;207;401;567;1943;2645;641;15427;24467;41767;122591;48905];
[97795;1;3;3;5;1;61;65;169;329;489;435;1719;491;6189;18383;34973;90611;180991];
[97809;1;3;7;9;25;43;115;11;289;193;263;3885;4881;15669;19757;20073;119873;67069];
[97826;1;1;7;11;3;45;93;115;233;891;1541;2557;2115;2237;4253;30445;32983;86185];
[97845;1;3;7;3;29;23;105;51;157;505;773;2403;1237;5193;32725;53331;66377;25745];
[97877;1;3;5;11;31;5;111;251;287;225;913;97;3429;15111;10637;18843;102589;229667];
[97882;1;3;7;13;21;43;27;11;265;991;1645;1967;2675;3083;2957;65275;7757;201953];
[97891;1;3;7;7;23;59;37;105;113;961;1585;855;6037;8461;24057;46861;42421;21061];
[97903;1;1;5;1;7;45;37;147;225;793;737;753;565;5347;15393;42611;39253;246455];
[97961;1;3;3;5;29;59;125;69;283;677;1615;3341;219;10753;445;43343;117035;137907];
[97970;1;1;5;1;19;41;93;137;481;93;703;1211;4051;5591;5913;32831;62027;60519];
[97975;1;1;7;13;17;63;65;147;361;83;1383;1761;579;9493;2611;6951;12197;81857];
[97996;1;3;3;15;11;3;25;7;221;211;1745;1173;5479;12063;5667;43443;4865;193345];
[98001;1;1;5;11;31;11;71;61;57;851;1089;1395;4525;1223;27681;14355;23125;257233];
[98014;1;3;1;11;25;59;17;193;229;1005;387;3993;2457;4185;18421;1315;125155;142277];
[98023;1;1;5;11;13;55;123;191;5;1023;705;3481;367;12961;11917;12131;99109;105093];
[98035;1;1;3;11;13;29;57;57;467;19;1409;971;3041;13487;24737;3377;97883;248893];
[98052;1;3;7;3;3;37;109;77;201;469;39;1747;2027;14781;18821;34647;123865;195097];
[98059;1;3;3;5;29;27;97;217;249;141;431;1621;539;8945;3443;48227;27867;205355];
[98061;1;1;3;13;7;57;65;167;103;511;239;325;1793;2811;14223;40999;12589;149759];
[98086;1;3;5;11;3;1;61;87;283;29;507;3473;2685;13829;32337;8413;12201;152309];
[98098;1;3;5;15;1;23;103;173;423;915;1519;1859;7341;8689;17141;53769;81189;144305];
[98117;1;1;1;5;31;41;89;117;329;245;381;3357;1053;15079;3569;27665;65645;259279];
[98118;1;1;7;5;3;55;91;35;463;15;1195;533;6013;10755;1919;61169;81285;82757];
[98132;1;3;5;11;3;29;85;169;163;733;939;3401;3709;3307;17329;56873;10721;174235];
[98135;1;1;5;1;11;45;75;247;435;21;1985;2261;7013;4935;2457;41077;53121;143269];
[98145;1;3;3;13;17;59;43;149;27;1;367;957;5607;2591;22161;10095;73769;52455];
[98160;1;1;3;13;15;15;121;83;469;819;1973;3595;2313;1621;3105;42971;7243;98727];
[98194;1;1;5;7;21;53;123;9;119;437;1567;431;3647;10967;22037;8523;81279;126473];
[98205;1;1;5;13;5;23;125;119;195;555;341;2037;313;6323;27201;8377;122793;197781];
[98210;1;3;3;5;17;25;67;237;349;443;1529;3541;3105;10105;13409;20165;64597;244513];
[98224;1;1;5;1;11;43;77;245;359;625;1171;597;3;591;2457;20275;75995;204685];
[98227;1;3;1;11;5;13;99;107;285;617;1687;2959;4439;771;3103;62363;89437;172221];
[98254;1;3;1;11;1;63;43;85;23;95;501;1223;669;16101;1071;53175;102101;419];
[98271;1;3;1;5;19;23;63;105;289;419;885;441;5107;4213;8683;1847;113301;240821];
[98272;1;1;1;9;9;9;111;63;53;531;517;3463;8171;2645;13883;52213;40707;24637];
[98302;1;3;1;5;15;43;71;215;117;685;1819;1105;5805;8875;31093;31077;93807;65631];
[98320;1;1;7;7;17;15;31;87;13;615;2003;3461;7585;1947;6693;26141;95059;52229];
[98346;1;1;3;5;5;55;7;41;473;541;545;2901;763;12731;24715;43301;7981;123961];
[98356;1;3;1;11;13;29;65;47;511;931;1681;3813;995;4261;32243;21327;33749;52607];
[98360;1;1;3;1;27;51;19;119;71;989;485;1483;4115;11743;5513;32447;62599;163185];
[98366;1;3;7;13;7;5;127;67;221;773;1641;3763;2061;2025;29813;64385;109219;70149];
[98478;1;1;5;15;9;29;105;245;333;11;803;1877;6735;3797;1913;63837;23649;234721];
[98483;1;3;7;13;11;21;113;175;385;885;1259;983;7715;11889;12515;35723;9897;63415];
[98486;1;1;5;9;31;63;53;51;375;133;2021;3173;3861;9885;4117;37505;73687;16411];
[98497;1;3;7;7;11;13;99;235;285;159;489;917;3033;7711;6545;52893;28549;68791];
[98528;1;1;5;11;31;15;89;157;105;347;455;3391;5341;16035;11819;57679;48057;147673];
[98537;1;3;1;5;21;5;1;41;213;677;1745;2591;6237;14265;5963;30017;47293;199411];
[98551;1;3;1;15;19;9;65;103;489;977;579;2571;2827;12971;24445;17963;68829;89781];
[98557;1;3;5;7;3;45;9;223;137;749;919;2695;7569;6735;16649;55899;91531;10709];
[98572;1;1;5;11;25;51;81;243;473;85;1189;2317;785;9307;25555;36623;66881;150945];
[98575;1;1;3;7;9;17;99;57;333;891;71;2359;2067;13265;30077;17935;47343;22673];
[98600;1;1;5;7;13;17;77;109;427;667;1367;2383;7505;11239;14229;35431;35473;62447];
[98628;1;1;1;15;27;5;51;221;471;877;449;3961;4197;15713;2955;58985;31431;241539];
[98635;1;1;7;1;13;61;55;199;87;679;723;271;1061;8043;13163;8079;81501;60467];
[98645;1;1;3;3;11;1;85;65;445;731;2017;3113;8085;7133;14789;2435;38459;234997];
[98652;1;3;3;9;23;31;49;137;349;651;1975;3429;7137;7841;28297;58209;36493;259097];
[98655;1;1;7;15;23;11;87;133;245;445;151;4075;141;15395;16649;36925;98421;217265];
[98665;1;3;3;5;25;53;57;177;481;177;671;1249;2663;12855;24537;31867;110323;164113];
[98710;1;3;5;7;23;25;19;91;447;1023;373;3863;4399;12973;7475;37485;8567;53271];
[98719;1;1;5;7;31;33;31;75;223;299;1549;1863;353;4339;8891;10365;3399;185807];
[98720;1;1;7;9;31;53;23;203;319;915;1923;205;3119;7243;25251;12907;101921;102695];
[98786;1;1;7;9;15;1;123;173;123;215;263;3003;5881;1117;15195;47457;66663;224177];
[98792;1;1;7;13;11;25;61;121;173;115;1897;2145;7783;9673;3321;1707;61475;53875];
[98806;1;3;7;3;31;21;27;99;421;225;1565;2351;2275;10583;7877;43505;27629;140919];
[98816;1;3;5;5;11;45;71;105;487;867;361;3995;2039;1495;27481;4753;20657;67077];
[98836;1;1;5;1;19;33;1;77;377;353;719;1463;7053;7409;32165;15557;117673;69887];
[98859;1;1;5;7;25;5;15;231;23;213;1627;1801;7793;651;9903;51745;111611;39679];
[98864;1;3;3;5;23;43;37;199;437;19;1853;2119;461;12641;15865;39941;122545;213443];
[98879;1;3;3;11;31;45;19;227;507;909;1501;2021;905;1763;1897;3735;81475;30005];
[98905;1;1;5;5;29;9;55;25;23;59;593;2197;6029;8235;8397;27521;96221;168837];
[98917;1;3;1;15;5;33;75;121;433;557;1011;3785;2545;953;17295;14407;94871;60445];
[98929;1;3;3;7;7;53;29;75;171;587;1701;3815;2761;4403;39;17291;34897;187257];
[98969;1;3;1;15;17;57;11;95;335;13;265;1161;7945;6419;26723;31907;89995;82265];
[98975;1;1;7;5;9;59;27;153;37;165;823;3525;621;4777;3485;9109;116567;34691];
[98976;1;1;5;13;23;27;11;63;35;39;995;2101;2611;14139;2683;63787;19813;97497];
[98981;1;3;7;15;31;15;3;163;167;53;71;1881;4213;3485;21525;705;122345;203549];
[98999;1;3;5;5;21;33;85;133;21;505;1639;3989;771;7171;21953;34503;31247;247459];
[99020;1;1;7;7;31;1;27;39;469;243;679;4091;7137;8505;13329;34139;69485;259795];
[99026;1;3;5;5;31;43;31;161;413;657;1407;1417;7349;3301;7691;49355;22929;68043];
[99054;1;1;7;11;15;61;73;217;163;503;193;3795;41;16251;1187;65363;113211;100337];
[99083;1;3;1;11;9;15;109;187;109;865;845;1579;321;1269;20613;5693;58421;254959];
[99093;1;3;1;13;11;3;19;135;93;779;1383;219;2737;377;1125;35663;130815;103797];
[99103;1;1;5;11;25;25;71;249;201;679;1677;1817;7619;10327;14821;47847;33629;250979];
[99131;1;1;7;15;23;19;69;39;25;843;99;3499;2457;11681;30009;17609;46653;162427];
[99156;1;3;3;7;23;25;77;135;61;501;1381;3977;1957;11255;16053;30297;58835;97589];
[99159;1;3;5;3;9;31;9;55;421;109;1823;1921;7349;2661;4503;36691;48843;182631];
[99165;1;1;1;11;7;23;107;125;393;105;1407;3461;4539;6121;7881;32407;83749;98831];
[99170;1;3;3;13;5;59;5;3;185;959;241;819;1443;1789;12771;26703;25399;182583];
[99189;1;1;1;3;3;47;7;45;93;373;175;87;649;12903;5029;1945;111967;140889];
[99223;1;3;1;11;9;47;25;191;215;845;1557;9;3451;5837;11763;29127;113115;99039];
[99227;1;1;1;5;23;53;45;1;361;751;807;1765;685;2109;28437;60489;65739;234511];
[99271;1;3;3;7;15;57;71;61;195;123;1745;3249;351;14309;2017;15653;110803;45937];
[99277;1;3;7;9;25;11;25;29;467;313;1927;2423;7311;14299;8145;8123;115103;213881];
[99278;1;1;3;15;1;35;111;99;507;417;1433;129;5565;13365;18853;8607;109739;120623];
[99313;1;1;1;7;13;31;93;3;327;67;1101;1965;5939;6505;3117;3021;33707;79353];
[99314;1;1;3;7;15;21;23;117;367;137;287;903;4685;13943;26779;24607;70853;99743];
[99345;1;1;7;11;25;43;67;181;459;737;1567;3491;5085;6487;23115;62341;102943;77301];
[99361;1;1;3;15;7;35;81;199;455;851;835;3421;4675;15173;9205;7305;109849;15183];
[99367;1;3;5;11;9;55;3;53;235;271;1265;3681;3627;3485;11591;53097;85949;158173];
[99386;1;3;7;3;15;27;57;183;487;9;1797;2973;3687;12987;9133;14595;52067;131217];
[99394;1;1;5;3;7;25;19;215;291;325;813;577;4249;10373;17233;29557;72979;70721];
[99417;1;3;1;7;25;1;107;167;367;303;883;993;4189;6557;13697;15251;77065;116127];
[99418;1;3;5;11;13;59;9;121;489;593;1503;601;5263;13837;20991;35761;45867;155905];
[99453;1;1;3;3;19;47;127;115;267;261;969;961;5919;10085;29363;4935;100485;75561];
[99454;1;3;1;15;11;53;39;187;53;11;1951;913;965;2565;5457;3237;24923;245681];
[99477;1;1;7;3;15;5;25;45;17;45;1317;1853;6627;15879;29935;24749;118149;35359];
[99518;1;1;7;1;21;45;67;71;25;743;925;3441;3013;1613;6321;12491;119931;164701];
[99544;1;1;7;1;13;15;35;187;91;995;401;2443;4183;10823;20589;27413;117095;20359];
[99559;1;3;3;7;15;51;55;167;409;859;719;3223;2457;16013;13639;4027;79339;225113];
[99592;1;3;1;9;3;29;105;193;279;27;1093;2199;6983;619;10163;40365;71015;102191];
[99597;1;1;3;9;29;5;33;247;27;299;2017;379;6199;15047;18329;3493;47679;76703];
[99603;1;3;5;5;9;19;51;129;157;831;1373;653;7489;13125;1815;10915;88679;50269];
[99621;1;3;3;9;9;49;79;11;181;679;1697;3707;205;13305;6293;56653;42619;116257];
[99646;1;1;5;9;23;41;17;135;145;715;257;1561;6941;2411;31459;25055;35807;51579];
[99693;1;1;1;7;11;13;49;155;403;569;751;2959;425;13949;22047;49829;71925;101647];
[99722;1;1;3;15;15;15;17;213;113;395;1999;2039;3623;13255;24435;54487;78773;202637];
[99760;1;3;7;9;5;21;61;165;97;349;1131;2677;333;13129;2137;22909;95795;143081];
[99780;1;1;1;5;31;41;109;179;295;475;639;3929;1841;7545;19411;52573;10173;236769];
[99789;1;1;1;5;27;51;9;217;393;671;931;433;7303;16295;6727;5703;88241;132665];
[99804;1;1;7;13;21;33;19;241;497;519;1413;489;4975;1345;24925;40383;110815;136217];
[99823;1;3;1;9;7;51;79;15;15;601;997;3713;7829;903;12393;60059;42057;175141];
[99826;1;1;5;15;9;63;107;63;495;591;207;779;8069;3013;23839;3075;127481;193885];
[99832;1;1;1;7;13;17;121;171;99;59;1043;1109;1337;1179;27635;34063;12945;1431];
[99842;1;3;1;3;5;47;101;205;157;595;263;3887;7015;4693;15211;25381;128803;227233];
[99851;1;1;3;11;17;33;1;19;153;603;119;2305;4041;4011;19849;761;52807;129811];
[99862;1;3;7;15;21;7;13;225;497;459;389;911;6349;5059;6363;41915;90687;214501];
[99871;1;3;1;15;1;39;31;83;147;629;185;1913;3217;959;651;65267;108613;20391];
[99899;1;3;1;7;9;11;29;201;245;815;1869;2597;5693;15669;23293;30885;4029;225737];
[99940;1;3;5;11;7;29;119;207;499;23;1563;3645;3839;2509;24043;64231;22509;221835];
[99983;1;3;3;7;11;49;13;201;353;217;831;2803;1521;12989;25339;41035;2125;165271];
[99985;1;1;5;11;1;45;93;29;55;1007;1919;241;5931;9211;17291;39849;25453;96077];
[100025;1;3;1;1;29;43;11;105;331;693;1363;291;8191;7813;14135;38287;15469;256913];
[100043;1;3;5;11;19;21;23;117;253;111;733;3785;5835;423;30251;27283;79561;162095];
[100070;1;3;3;1;9;19;83;13;37;725;1597;1117;8067;8085;1315;41813;8973;175525];
[100076;1;1;5;3;13;39;3;213;335;907;1143;1729;601;11255;24351;41045;11335;186221];
[100084;1;3;3;9;17;11;29;33;303;815;1607;2403;8095;4213;16697;64733;24439;93081];
[100096;1;1;1;3;13;37;35;181;243;645;1915;3521;569;3005;7271;32755;64575;119813];
[100105;1;1;5;13;25;59;77;121;459;755;385;1893;1227;9957;5069;40063;27261;4703];
[100108;1;3;1;3;29;41;95;255;219;21;317;3021;2615;5101;19413;25795;6521;157749];
[100123;1;3;3;5;7;33;7;205;415;23;1431;117;1605;9541;11825;49195;86341;99673];
[100132;1;3;3;5;17;37;33;209;49;161;321;3697;6483;12859;895;675;1899;260289];
[100141;1;1;3;15;1;27;83;125;309;553;505;2209;4931;2593;28253;12879;74971;9047];
[100181;1;3;7;3;15;3;105;19;41;119;149;3847;6593;875;23777;4547;57717;139387];
[100191;1;1;1;3;9;43;25;15;67;609;951;273;8095;621;24819;17233;53423;192757];
[100202;1;3;5;3;9;49;107;215;245;217;545;2285;2075;401;26599;32967;130457;203755];
[100216;1;1;5;1;7;31;87;181;135;155;9;1431;307;13367;31147;10327;2817;63327];
[100246;1;3;3;3;29;17;55;201;33;275;2005;3037;3439;1513;7563;46491;103319;5279];
[100256;1;3;7;11;31;63;105;169;257;225;711;2041;1519;11801;18543;35173;92125;72729];
[100271;1;1;3;3;11;13;127;231;229;809;303;1167;47;4281;2373;10455;74685;131775];
[100285;1;1;5;15;1;5;97;139;189;39;37;3513;2119;1453;11477;45477;75613;169915];
[100294;1;3;5;1;15;27;31;87;311;785;489;1331;5259;6963;26441;41675;107187;60723];
[100305;1;1;3;5;13;9;33;3;273;357;841;1421;5993;12449;6821;4283;9437;215035];
[100321;1;3;3;1;15;43;101;35;23;743;29;3953;3095;14355;25977;12513;54565;20199];
[100331;1;3;3;1;11;53;99;95;63;503;1361;3231;2445;5073;4667;33033;4575;139475];
[100334;1;3;3;5;19;57;15;115;125;1017;1913;907;2461;3229;16591;6591;26385;228661];
[100345;1;3;1;11;27;19;7;121;245;997;1743;2571;1333;9603;27811;42081;44365;94943];
[100346;1;3;1;1;13;5;127;217;63;137;989;1441;1133;8273;18091;22243;122931;28867];
[100369;1;1;7;15;23;39;57;83;321;817;819;223;4803;6935;2027;20373;119683;29781];
[100372;1;1;7;7;9;1;55;211;455;283;1647;471;4351;14119;6945;63117;109687;200165];
[100382;1;1;7;7;29;45;113;253;135;375;1091;959;1423;1241;31689;33751;73459;91769];
[100403;1;3;5;11;23;63;55;181;453;267;995;1309;2847;3791;21683;59809;81891;132635];
[100451;1;1;1;13;17;37;87;17;61;689;1895;3877;4717;6447;22329;1619;30069;190887];
[100488;1;3;1;7;27;61;17;51;99;909;85;951;107;1923;35;63389;90273;152643];
[100499;1;1;1;1;15;39;77;255;191;613;655;1881;267;3927;18025;13825;15381;169193];
[100501;1;3;3;1;31;17;73;69;231;221;501;3755;1671;2049;22493;16353;1775;181783];
[100511;1;1;7;5;31;45;125;189;287;487;1911;3133;3257;8967;21295;1247;72297;68269];
[100536;1;3;3;1;7;9;123;147;7;381;1597;1289;7831;14493;21145;15487;70353;147891];
[100629;1;1;5;9;15;17;43;87;101;425;1819;163;6741;8255;2591;17719;112871;110793];
[100652;1;1;3;9;3;27;7;41;43;743;131;705;2607;9963;26367;41191;126347;164291];
[100655;1;3;3;15;7;17;97;153;283;461;1723;2421;4973;16369;30633;62299;119425;3591];
[100669;1;1;1;13;7;33;95;255;429;693;849;3783;5985;8551;23227;1015;109023;42493];
[100687;1;3;1;7;3;43;53;137;413;265;2033;1347;335;529;24751;16443;122195;158951];
[100692;1;1;5;9;27;21;83;185;325;557;1247;2739;6925;5459;26027;62217;61113;197743];
[100696;1;1;3;13;9;57;79;133;137;851;863;1605;7839;11809;29941;20473;6687;164479];
[100701;1;1;3;9;9;51;123;29;139;43;1329;2701;3413;3875;19673;62369;10529;226525];
[100706;1;3;1;5;25;47;7;201;119;623;9;25;1713;10817;8201;5847;77477;237883];
[100711;1;1;5;13;15;53;39;93;235;619;1695;2389;2571;2389;4619;45769;17245;69973];
[100726;1;1;7;1;31;9;75;143;1;67;809;1037;2801;16129;22443;26021;119683;14681];
[100754;1;3;1;9;23;49;69;71;139;953;1053;3059;1061;5881;26207;15907;79389;95341];
[100759;1;3;5;1;19;39;69;183;95;289;847;393;1649;1275;21187;34715;67553;123239];
[100790;1;1;1;5;21;39;119;193;347;87;731;3327;6089;13781;20389;52303;11869;48975];
[100838;1;3;5;1;19;17;93;33;215;457;687;1325;1997;2655;21195;54997;36877;57991];
[100878;1;1;1;3;17;45;91;45;231;611;413;2321;7181;13765;7791;6973;24497;231795];
[100880;1;3;3;15;7;29;103;31;295;637;1775;2293;8001;4175;1257;16881;93695;180591];
[100885;1;1;1;13;31;7;47;51;267;231;463;939;7977;8593;15329;36871;50449;222341];
[100886;1;3;7;3;27;31;57;135;507;177;1455;1963;4473;6449;727;49853;65275;237531];
[100943;1;3;7;11;31;21;111;231;269;27;719;3275;2489;3689;3425;23763;39413;64565];
[100948;1;1;1;11;23;27;31;153;201;985;1553;3061;7663;4079;13549;48765;64169;68223];
[100957;1;1;7;15;11;53;125;23;73;799;591;665;127;3941;11251;12649;2657;230923];
[100962;1;1;7;15;29;43;95;81;337;367;779;1237;7627;997;3355;1245;70477;159097];
[100968;1;3;1;13;19;31;11;91;179;425;1395;1439;2723;401;26779;36723;115743;179653];
[100981;1;1;3;1;29;35;11;217;301;421;765;1949;5475;2247;3953;27091;16895;194821];
[100986;1;1;5;9;11;21;95;135;127;65;609;3893;7143;13231;29199;36205;38711;159599];
[101001;1;3;5;13;25;25;101;221;495;993;961;2575;907;5277;18415;1797;22043;129889];
[101012;1;1;1;15;21;21;99;3;175;735;659;543;7573;15549;14067;60009;65785;112927];
[101015;1;3;7;7;3;39;61;203;143;581;487;2097;3943;6869;14435;46431;101781;233067];
[101019;1;1;3;1;13;27;21;147;295;89;1845;1017;4621;10029;3517;25371;104531;225179];
[101037;1;1;3;11;25;51;45;179;299;487;2039;85;4643;8211;12051;64819;93481;159511];
[101063;1;1;5;3;21;7;73;193;415;7;125;2487;7369;2043;7633;19265;65337;57399];
[101105;1;1;5;3;3;53;51;169;313;973;1549;243;3155;13827;24971;61393;15147;187397];
[101144;1;3;3;3;29;33;91;41;367;77;1259;1703;2105;14473;17763;29809;47777;205553];
[101147;1;3;7;3;23;61;59;235;51;41;417;691;2953;15577;32283;2793;109557;64729];
[101154;1;1;5;9;13;17;93;201;151;323;1481;3645;3039;5131;503;42055;114939;198755];
[101163;1;3;5;1;21;53;75;29;283;541;499;309;1923;995;21479;56183;103743;152113];
[101166;1;3;1;3;21;51;67;97;481;509;805;213;5157;13573;16187;8199;28025;208445];
[101173;1;1;7;7;15;25;107;127;355;249;707;1287;6831;5317;15613;12837;48091;27611];
[101174;1;3;3;7;31;53;127;239;17;709;979;4023;7149;4239;20015;44365;113245;75873];
[101219;1;3;5;11;27;37;49;123;137;967;1857;3961;7429;8355;30733;64587;73903;188581];
[101240;1;3;3;7;19;51;69;121;345;637;1987;335;7071;13849;22369;46895;20761;148227];
[101250;1;1;3;11;9;1;93;151;487;889;919;2429;5425;15303;12583;57627;42683;98265];
[101259;1;3;5;3;1;29;87;189;285;805;933;1381;2789;107;14215;33171;110573;250983];
[101273;1;3;1;1;27;43;63;115;317;401;885;1029;7003;10041;15299;42251;58675;177545];
[101274;1;3;5;7;11;33;119;5;185;777;1795;1585;3543;1801;17681;1041;44513;105435];
[101285;1;3;1;9;19;33;15;253;299;925;241;1333;615;12501;499;44449;16595;70357];
[101300;1;1;3;13;13;31;17;123;215;805;1177;3683;27;11881;7645;25575;63057;89547];
[101309;1;1;5;5;17;1;57;183;267;825;1987;329;5603;1295;425;61871;27859;157109];
[101310;1;3;3;11;19;45;37;79;191;17;17;3379;7941;3159;20351;26341;34687;116281];
[101321;1;1;3;7;11;7;61;199;459;993;1729;3751;1067;14965;14669;40281;12579;154601];
[101324;1;3;3;13;19;53;17;39;137;219;1645;2899;505;10057;22891;32317;81201;126291];
[101363;1;3;5;7;21;53;65;125;69;781;761;1683;5817;11859;11543;62853;57149;212261];
[101366;1;3;5;9;13;25;81;119;439;25;239;2867;421;12631;22705;31039;96105;79023];
[101377;1;3;5;3;19;9;51;135;437;393;1711;1205;5195;10927;28583;7513;110227;139295];
[101380;1;3;7;9;31;15;5;143;49;13;1143;2325;5437;14289;31555;58777;102675;64559];
[101389;1;1;7;3;3;21;65;127;341;109;167;1835;6687;1695;15631;47047;127543;51413];
[101407;1;1;3;1;31;49;103;147;59;701;1251;3391;1935;5371;28585;50023;73839;118205];
[101411;1;3;3;1;5;49;91;23;91;663;1369;1437;2657;11369;29857;53875;127045;242323];
[101432;1;3;1;3;23;33;7;105;353;863;1211;1175;1347;12913;11973;55255;27145;175539];
[101476;1;1;1;13;9;29;71;71;509;571;2005;3125;2731;6829;26863;16459;113195;80247];
[101488;1;3;5;1;7;11;45;177;281;695;1197;2035;2137;11833;12417;5805;77211;45553];
[101494;1;1;7;7;27;59;91;183;267;373;677;2431;903;4229;31997;19843;125089;242871];
[101514;1;3;3;13;23;23;53;101;225;247;2013;853;279;2161;30045;28255;130907;57157];
[101534;1;3;5;13;5;11;63;137;219;661;773;1991;4081;5963;25207;50461;85293;159441];
[101537;1;3;1;15;5;59;43;87;429;77;73;1275;2619;16133;20009;26089;38129;157267];
[101543;1;1;5;15;9;59;37;127;127;733;1703;1331;4293;3555;22739;49513;34533;143225];
[101547;1;1;7;7;11;51;121;59;505;147;1855;1661;5539;3421;28863;14811;39811;228927];
[101584;1;1;5;5;1;31;57;167;107;753;1835;2491;3311;8639;8743;17279;77071;8673];
[101589;1;1;3;3;15;39;1;223;395;603;1095;435;1225;4045;21721;40767;48971;1583];
[101590;1;1;3;13;9;17;47;175;229;827;769;2901;137;9931;11115;25337;105811;68413];
[101629;1;1;1;5;29;55;43;39;319;919;749;931;1973;13147;913;48353;40955;189783];
[101678;1;3;5;5;13;33;81;213;79;781;1069;3117;5859;9061;30963;17307;6281;208707];
[101683;1;1;5;13;27;63;41;91;123;763;1115;3193;4571;4573;8235;24291;40911;225985];
[101700;1;1;1;7;13;5;77;215;67;183;1447;1571;213;3481;28349;22451;44951;240257];
[101712;1;3;7;7;3;21;39;233;263;19;489;1511;2313;1799;25173;17913;70593;2969];
[101748;1;3;7;15;3;1;93;101;393;911;1055;953;1279;11947;11963;53443;29105;226057];
[101757;1;1;3;7;7;53;119;39;439;629;1845;3411;3633;16345;27501;59565;39581;85373];
[101762;1;1;5;7;19;39;19;191;509;239;359;645;8107;13721;21289;20763;67727;45957];
[101771;1;1;1;13;5;13;113;41;135;351;311;1099;2391;16165;15805;54737;102645;224417];
[101785;1;3;3;9;17;47;95;249;45;749;313;317;2413;15861;27221;35537;6407;50111];
[101795;1;1;7;5;29;57;81;7;233;393;307;1089;1367;12275;11861;29119;27271;36351];
[101822;1;3;5;15;9;15;23;241;233;305;1025;2035;4897;10321;17345;42873;109045;129533];
[101851;1;3;5;9;21;33;111;81;311;829;1851;1437;5935;7847;15493;28531;74879;40567];
[101863;1;3;7;7;13;21;43;119;507;701;1385;745;799;1567;13271;40267;130843;59951];
[101894;1;3;3;1;19;43;45;119;87;263;1475;3897;2811;2711;4949;48043;125237;230897];
[101903;1;1;7;1;1;53;17;71;313;373;5;2359;1643;9867;18365;5011;40675;105371];
[101924;1;3;7;11;23;49;123;255;33;241;473;959;1859;6109;5433;27625;46839;90727];
[101939;1;1;1;3;31;43;33;129;159;445;1831;1005;587;2091;5749;33271;50909;65057];
[101980;1;1;7;13;3;21;17;125;357;97;1255;669;1583;7433;32287;61795;5915;211593];
[101993;1;1;7;7;31;19;71;211;213;731;1491;3315;3633;14953;21369;4977;33533;12115];
[101994;1;3;1;1;31;1;87;253;211;57;1431;2613;4075;14463;11287;38671;100129;4241];
[101996;1;1;1;5;21;13;27;29;31;285;179;3861;5319;15683;2579;15663;63357;81849];
[102007;1;1;3;7;23;29;29;79;263;865;1237;3871;2097;5337;2387;59277;28831;57957];
[102044;1;3;7;15;15;31;83;195;87;691;71;1025;3145;675;14619;22399;88885;222969];
[102086;1;1;5;7;19;3;121;105;383;675;777;2073;643;14439;19467;13159;115421;250561];
[102097;1;3;5;9;13;41;119;23;355;765;579;849;3313;2443;29521;42965;102559;227707];
[102113;1;3;3;7;23;55;115;83;331;873;797;621;1197;15299;26307;34287;120459;260603];
[102123;1;1;3;5;7;11;113;119;65;691;1169;2291;7283;1391;10737;3801;40649;191009];
[102155;1;1;7;9;3;23;95;109;457;277;871;3013;2833;4131;21081;43635;19875;162173];
[102157;1;1;3;15;25;7;45;109;195;935;1487;1603;1663;15595;10687;4073;34863;45851];
[102169;1;1;1;5;21;19;37;141;377;553;1225;2485;1235;13179;2587;43659;1405;52023];
[102181;1;3;1;9;5;27;1;219;397;555;533;941;2755;1295;16157;30733;54279;168455];
[102182;1;3;3;1;27;41;93;177;119;581;167;3943;5765;15455;555;17419;33117;160599];
[102185;1;1;3;7;15;25;29;177;503;529;229;2535;1493;805;30983;26309;123453;118441];
[102199;1;1;7;15;13;33;83;151;183;433;823;4003;1991;6563;18743;61835;56535;191193];
[102208;1;1;1;13;9;31;91;63;455;67;243;1573;3507;9491;4677;13835;121603;241781];
[102213;1;1;5;5;29;13;45;29;289;909;1923;3371;3675;13119;24599;58511;109467;126865];
[102226;1;1;5;9;21;41;41;179;25;463;949;819;397;12329;3461;34773;61337;23579];
[102290;1;3;3;11;1;25;17;165;77;455;1983;143;2763;8165;14849;1601;30093;54599];
[102296;1;1;7;3;7;1;117;117;53;611;1405;3357;1717;8157;247;17501;30201;192485];
[102306;1;1;1;5;23;47;95;173;133;603;1627;4039;5599;10575;30275;60287;3313;77551];
[102317;1;1;1;9;31;49;87;169;221;561;1045;365;1955;9905;13057;33717;91203;57513];
[102337;1;3;3;1;19;25;113;231;415;717;1767;755;4825;7541;10121;9351;72093;255877];
[102344;1;3;1;7;1;35;3;231;345;375;809;2753;849;13915;16127;7575;45259;28917];
[102350;1;3;3;11;23;43;13;37;305;765;517;333;473;14949;11939;35171;63963;181825];
[102378;1;3;3;3;5;43;35;89;293;913;1325;2097;603;14365;4005;38935;23837;34271];
[102383;1;1;3;15;1;47;67;199;167;909;1167;1513;7087;5017;23469;2621;24961;226679];
[102391;1;3;7;15;23;37;111;217;33;423;457;1767;4821;10233;27045;33397;85351;156751];
[102400;1;3;3;7;31;25;67;65;291;169;1505;1707;4833;11541;1189;62959;59831;48729];
[102409;1;1;5;7;27;27;15;23;189;819;709;3591;2781;14807;20303;27795;88349;210251];
[102427;1;3;7;15;1;19;49;103;219;85;1281;3981;7229;10427;11689;1547;90747;12283];
[102434;1;1;1;13;31;49;81;121;287;851;333;353;7373;10165;1157;11713;89445;210709];
[102453;1;3;7;5;31;35;3;229;443;973;1971;1861;5695;6725;6405;45927;115313;228667];
[102472;1;3;3;11;29;17;105;203;69;945;1239;3213;6005;10095;31233;37421;62911;91371];
[102502;1;1;7;1;21;59;7;43;391;299;1225;283;3351;11495;25071;16619;65127;114033];
[102525;1;1;3;9;17;11;71;73;377;437;311;1083;6941;1039;1047;55647;21239;209201];
[102547;1;3;7;5;29;51;113;163;215;511;615;2427;2747;14389;1005;27015;31809;30603];
[102554;1;1;1;3;9;61;9;201;259;411;175;1003;401;13695;13103;3075;43695;177139];
[102560;1;1;5;3;17;47;125;173;277;17;619;2295;3091;5615;4529;54065;81875;97279];
[102578;1;3;3;9;3;61;97;151;287;671;1439;1129;6343;8161;24593;40371;109705;106279];
[102580;1;3;3;1;5;61;21;31;41;855;1541;3351;575;3195;17155;46913;1797;146401];
[102597;1;1;7;13;11;43;27;97;479;117;1873;3103;1947;9273;29171;35719;10601;209629];
[102616;1;3;1;9;21;47;53;129;85;505;165;3437;5687;10289;6615;46719;50731;25271];
[102625;1;1;3;1;1;33;37;239;45;565;1907;3831;2177;10967;12689;49395;36289;247507];
[102632;1;1;5;1;19;57;75;245;59;967;1319;3971;5267;11713;15417;60503;63431;157267];
[102663;1;1;5;7;7;15;99;87;331;261;1973;219;3063;4071;19273;48637;128089;55511];
[102669;1;3;5;13;23;43;7;171;173;1023;1145;3551;5127;6365;18013;1613;51997;107265];
[102681;1;3;5;3;7;7;23;195;251;387;1889;3645;4221;6025;27291;24831;123749;231403];
[102694;1;3;1;1;29;49;107;215;93;211;1349;1925;7149;1015;27465;34139;126149;121349];
[102706;1;1;5;5;19;15;121;189;167;801;483;1955;8031;4749;26665;64791;18671;123221];
[102715;1;3;3;15;23;57;15;249;197;103;2021;1897;5975;12821;6441;62719;81415;232417];
[102723;1;1;3;9;17;45;111;225;103;121;1259;2849;2235;2041;13261;7929;76325;38677];
[102730;1;1;3;9;25;17;63;63;369;387;31;1423;5699;12519;27407;53193;963;123473];
[102743;1;3;3;13;3;59;59;3;367;357;1391;1519;2619;2291;1349;28275;21655;8763];
[102856;1;1;7;1;31;51;121;49;157;509;1513;3247;3439;8691;20729;17585;49013;228695];
[102870;1;1;5;9;11;29;103;49;209;35;673;1409;2483;4561;12435;46139;31019;50929];
[102898;1;1;3;9;11;45;77;143;277;769;1151;3705;7901;3735;31155;46135;84061;254357];
[102926;1;3;3;3;5;51;95;7;155;121;1899;2261;2915;6637;6557;20535;20937;257275];
[102931;1;1;7;9;13;49;125;135;7;535;1171;3501;1701;5791;10121;9845;21645;56451];
[102938;1;1;7;5;9;1;115;27;229;813;133;753;1959;13121;30425;31059;114619;132257];
[102947;1;1;5;3;23;25;41;165;21;551;1751;3563;731;15811;14777;22327;82853;116699];
[102968;1;3;1;9;3;25;95;211;457;25;349;921;213;5721;26725;19541;102473;200845];
[102976;1;3;1;13;5;1;31;49;493;785;61;2603;5997;12545;9793;32521;99859;256105];
[102993;1;3;3;7;31;19;31;121;507;79;685;197;4027;12909;30533;38427;38993;14581];
[103005;1;3;7;13;13;23;63;15;223;25;1957;2527;6061;11753;4835;34553;45579;205805];
[103019;1;3;3;3;5;39;55;123;275;185;749;3227;8137;12959;7243;20613;46247;106127];
[103022;1;1;7;13;1;21;49;145;237;291;1721;2981;267;1255;21817;39553;21937;115307];
[103057;1;1;1;15;5;63;3;201;117;991;1049;1975;5117;5799;28211;37907;46799;240847];
[103080;1;3;3;5;25;15;29;111;201;857;319;2695;4251;4303;28495;12481;31979;107503];
[103100;1;1;3;11;3;27;81;55;489;983;293;3181;4593;4759;18437;51185;47701;75469];
[103106;1;3;1;3;11;25;113;243;365;299;1717;561;5173;5983;7453;33563;98519;162451];
[103126;1;3;1;5;1;21;3;87;267;483;1397;791;4807;4649;13713;19861;110471;51443];
[103173;1;3;7;5;31;9;13;251;351;609;841;3267;4201;8771;6673;44867;105221;189399];
[103202;1;1;3;1;13;43;47;153;331;1013;705;1867;563;6361;7407;46243;30521;213831];
[103207;1;3;3;7;29;41;3;179;319;877;905;3803;2775;9729;5673;9521;117887;37605];
[103219;1;1;5;5;11;49;111;195;467;931;849;2785;7829;2291;29031;52019;86493;213971];
[103226;1;1;3;11;13;11;81;81;419;621;181;1203;7305;7857;16885;2531;53127;35553];
[103228;1;1;5;1;19;35;75;131;159;211;319;2805;6497;14759;28997;62347;4013;233821];
[103248;1;3;3;15;1;55;107;105;35;369;1259;665;6717;2555;7149;10373;33153;105915];
[103274;1;3;7;5;31;13;27;207;359;355;2047;1777;5555;12659;30547;3655;86189;961];
[103288;1;3;7;9;9;55;7;117;57;115;745;501;2341;3899;8229;10625;66905;187959];
[103291;1;3;3;13;25;43;87;197;303;405;1459;3385;4109;8325;24747;18405;48845;96673];
[103293;1;3;5;3;21;37;109;9;183;585;1287;3851;4939;1057;19489;42603;32447;117957];
[103324;1;1;5;13;3;47;109;115;73;733;1189;3773;7471;10339;5093;50253;122665;254381];
[103358;1;1;5;5;21;33;113;187;51;245;241;3887;4075;11945;20883;18817;43567;851];
[103372;1;3;7;3;1;29;87;101;29;93;643;2659;1753;4797;17477;16087;43453;110383];
[103375;1;1;7;13;17;51;75;91;445;171;1369;499;3753;14035;4445;21437;86205;231163];
[103390;1;1;7;13;17;41;67;49;225;659;1181;1751;5211;6847;20339;34271;60273;52315];
[103414;1;1;5;5;5;17;87;223;25;773;53;2447;6805;6547;4429;46809;51171;66457];
[103432;1;1;5;3;29;49;11;205;279;821;725;2425;443;211;6347;59845;90763;237911];
[103446;1;1;3;9;31;7;49;1;229;755;517;809;2955;3571;2385;33097;19659;55397];
[103455;1;3;5;3;5;21;67;227;359;401;1697;2131;4585;2661;3659;22621;51639;245877];
[103471;1;1;7;5;11;7;57;133;9;917;427;2777;6009;11393;29473;59311;77095;176215];
[103474;1;1;7;5;13;29;101;15;293;7;797;437;3739;3369;16917;19047;17773;219541];
[103476;1;3;1;9;13;51;15;19;209;991;413;787;3797;14029;23699;8591;40429;56115];
[103515;1;3;7;3;31;9;77;33;487;155;1903;3023;8163;385;4703;57511;102083;85785];
[103527;1;1;5;11;17;59;115;73;89;723;1523;2671;1755;3463;19861;31573;126405;90215];
[103542;1;3;3;13;17;27;123;37;71;173;203;1245;7905;8955;22589;56705;120473;90129];
[103562;1;3;3;1;17;63;55;225;259;531;1493;2639;1319;10865;17993;11205;13253;111261];
[103569;1;1;1;11;25;17;41;45;385;1009;1573;1797;527;543;14743;35789;63871;112183];
[103572;1;1;7;15;15;57;109;127;143;955;1091;2585;3429;11763;5849;53805;116865;68895];
[103581;1;1;7;15;9;11;1;9;491;765;1835;3825;5043;13091;4123;19621;17687;241015];
[103609;1;3;5;7;25;51;117;193;91;451;1871;3819;1881;8065;25809;36257;107955;37109];
[103612;1;3;1;15;5;5;101;7;59;859;977;2673;2825;3291;26283;23467;28383;257775];
[103618;1;3;3;15;17;43;87;191;85;829;653;327;1773;10101;2707;18341;61435;242215];
[103637;1;3;7;13;27;43;127;253;403;81;505;2841;1509;4951;23791;18099;46747;192717];
[103644;1;1;1;9;31;15;127;29;171;999;1919;4059;2781;2475;8997;15459;37003;217141];
[103653;1;3;3;1;31;41;67;31;171;719;789;645;3925;11117;1241;63221;1087;59789];
[103663;1;1;1;9;17;41;107;13;405;879;1955;3309;1281;10601;13883;43987;111691;130555];
[103671;1;3;7;9;21;17;127;243;51;689;1945;3769;7121;7703;16825;34893;32167;20167];
[103678;1;1;1;5;7;7;61;149;75;289;717;1951;5917;13375;15683;27507;10897;199009];
[103695;1;3;7;9;25;61;43;167;45;299;5;125;3289;13685;10843;25535;98383;143401];
[103698;1;1;3;15;21;27;37;45;233;179;611;3025;7887;9421;16791;17147;49013;33249];
[103720;1;3;7;15;19;43;43;9;255;295;649;811;1303;1989;5401;53891;42679;66879];
[103723;1;1;7;7;25;31;89;199;455;733;295;1157;4375;7341;7823;6025;56311;257579];
[103738;1;1;7;3;1;51;15;29;35;917;1839;741;1089;8615;4967;34047;32981;200693];
[103743;1;3;3;11;21;13;71;53;315;801;1015;3829;2297;6649;28501;18173;83121;107195];
[103745;1;1;7;7;1;5;127;103;435;707;7;1045;187;10927;32395;24999;58463;94069];
[103757;1;1;7;9;11;25;73;57;231;455;1033;2899;2861;8811;21671;16115;97807;221791];
[103810;1;3;5;11;11;19;105;37;181;1;1231;2275;4789;13071;24843;25901;123711;145609];
[103822;1;3;7;13;7;7;21;215;393;43;1713;2921;1959;14417;17109;55793;36285;81731];
[103855;1;1;5;15;29;15;5;115;15;795;1535;2473;3663;10123;20721;32739;21141;217731];
[103887;1;1;3;1;15;13;21;49;293;689;985;3949;3329;7167;16925;15069;47345;192749];
[103905;1;3;3;7;5;27;85;11;337;651;777;1775;5279;15229;21473;36561;85293;27893];
[103915;1;3;7;1;15;29;7;199;71;893;1587;1831;3891;3299;14323;23165;28199;84055];
[103925;1;1;1;7;9;27;15;75;497;127;433;1781;3711;12659;3765;40827;112425;36281];
[103929;1;1;5;1;31;59;9;91;301;217;2013;2015;265;3795;14609;13389;5451;260169];
[103945;1;1;1;15;19;43;85;37;33;687;1253;2615;4027;3741;13971;21261;106261;204233];
[103954;1;1;7;9;31;45;105;111;207;433;633;3949;8057;5049;23657;12227;86251;218077];
[103969;1;3;5;11;13;33;1;67;117;595;1835;287;2509;14841;1525;15761;61319;182531];
[104011;1;1;3;9;7;43;105;85;17;349;1769;3945;31;4907;9373;22447;70905;29189];
[104055;1;1;5;5;9;19;93;179;95;255;1807;2717;4757;15025;19479;63499;42441;236519];
[104111;1;1;1;1;21;35;1;101;343;1023;1311;347;301;8419;23367;31543;51661;148277];
[104116;1;1;7;11;23;37;113;207;147;743;1905;1683;3733;5659;22491;62129;111671;227019];
[104125;1;1;3;13;27;5;21;207;445;319;1355;2541;2853;583;1261;64477;18337;91611];
[104145;1;3;5;3;1;31;51;55;487;735;1599;523;5323;10855;28717;62103;18671;143885];
[104162;1;3;1;1;15;5;79;107;173;747;1213;1151;875;12759;27115;16403;31349;208909];
[104176;1;3;5;9;13;57;35;121;135;237;1707;3655;8109;3623;5119;27645;49401;46453];
[104193;1;3;7;11;27;3;103;231;43;515;1279;499;1355;2605;11587;33641;81661;29441];
[104199;1;3;5;7;13;27;55;191;81;185;527;519;4555;3349;24533;60635;40009;230761];
[104224;1;1;5;3;13;35;75;211;67;305;705;543;3819;16265;9867;64309;35047;24873];
[104236;1;3;1;1;11;37;75;3;145;327;1243;3291;7127;5009;7757;59567;90459;98035];
[104247;1;3;5;9;9;5;71;29;243;41;447;2597;1243;12899;19681;30523;90799;142279];
[104254;1;3;3;3;15;21;25;101;451;651;143;3899;3377;4855;23843;25047;87951;239229];
[104289;1;1;1;1;23;29;25;31;227;43;399;723;693;12379;11343;46123;105435;224997];
[104325;1;1;7;3;21;47;77;57;397;689;267;813;1279;1727;7451;34025;90273;111663];
[104332;1;1;5;3;25;61;7;137;271;723;495;2575;3695;4947;31973;47835;107003;221839];
[104335;1;3;1;7;5;25;21;95;323;3;613;1721;2551;8803;6803;52765;34543;110945];
[104353;1;3;5;9;27;23;123;193;63;161;1395;679;161;13719;29321;19243;51947;229547];
[104363;1;3;5;15;15;37;127;103;439;513;989;1393;3761;9109;20649;18171;69939;117447];
[104371;1;1;7;9;7;57;87;159;195;821;57;2469;7693;6759;32595;41109;94785;53381];
[104373;1;3;3;7;17;63;41;7;437;469;1453;3741;7591;5563;11819;23861;129777;119731];
[104406;1;1;3;3;27;55;21;145;243;991;687;909;2105;4485;9095;3677;53819;183027];
[104412;1;1;1;15;13;61;27;81;95;37;1439;973;7613;5749;16811;26801;105745;8847];
[104440;1;3;1;9;15;17;111;61;27;373;89;2729;6397;4899;11297;4403;30657;207379];
[104459;1;3;5;15;19;9;19;19;497;667;105;601;6715;6355;4231;19241;101771;105651];
[104461;1;1;3;9;11;11;115;109;177;753;997;2119;5969;13377;13285;25373;105023;158393];
[104469;1;3;5;15;27;23;19;117;129;457;1973;2171;8071;2093;13407;9295;82967;184753];
[104479;1;1;7;5;1;45;9;25;307;629;1169;2859;3987;11411;13609;44993;26019;107003];
[104483;1;1;1;13;29;15;13;163;203;885;281;1605;8001;899;4081;65467;61283;198963];
[104490;1;1;3;5;27;9;89;193;375;633;1807;2069;3467;3167;23751;39115;90093;190365];
[104500;1;3;3;5;1;1;19;161;21;745;493;2227;7993;3337;27041;4817;58963;237015];
[104536;1;3;5;15;15;45;51;145;299;787;1059;2407;1143;775;17473;22235;18241;103897];
[104560;1;1;1;9;11;35;75;195;281;935;113;3009;4797;7221;12475;18563;10315;255541];
[104569;1;1;5;7;25;9;121;179;303;511;2041;1485;529;13843;29013;28139;63237;21259];
[104588;1;3;7;11;9;21;61;177;63;179;679;17;4069;8929;14499;53913;27925;48449];
[104591;1;3;5;3;9;27;111;247;253;175;1591;3583;3351;9039;597;23859;126585;157367];
[104621;1;1;7;9;1;9;29;1;273;89;767;1873;39;10487;29857;23577;67457;44571];
[104661;1;1;7;5;5;23;13;181;283;333;21;1409;5937;8981;7445;61267;21729;32677];
[104675;1;3;1;15;31;5;45;253;179;91;341;359;4269;7567;23699;30589;42909;126171];
[104684;1;3;7;7;23;45;15;93;115;873;49;845;827;14357;20163;41565;37105;120331];
[104713;1;1;7;7;15;25;55;175;11;457;1537;1937;807;11399;27751;16935;75231;204039];
[104747;1;3;7;13;1;37;67;145;471;1013;1273;4093;4449;4433;29063;205;93249;140383];
[104750;1;3;1;13;1;57;85;223;349;125;863;2179;7813;8817;1767;19169;41367;65883];
[104757;1;3;3;15;21;39;3;31;67;505;271;505;5495;4183;3631;4567;48061;149565];
[104775;1;1;7;11;13;39;109;201;287;1013;1505;3105;3845;1963;4361;61753;29145;146235];
[104782;1;3;5;3;29;39;71;99;501;53;835;3295;5335;1017;25913;63637;115353;210509];
[104803;1;3;1;13;9;53;33;177;419;63;793;1329;2261;11633;18805;49771;47533;74949];
[104820;1;3;7;11;7;49;123;237;195;17;1919;1911;4135;11829;26307;34905;114361;228655];
[104824;1;3;5;3;5;57;65;161;195;857;1187;2303;1975;2555;26065;17963;57403;136193];
[104829;1;1;3;11;1;5;105;217;229;769;1393;2419;7751;14293;9407;4569;30663;89345];
[104830;1;3;3;7;23;15;15;189;67;863;485;2435;5145;10537;16485;50369;118245;253201];
[104836;1;1;1;5;27;27;47;129;383;227;115;3027;1575;15765;10207;4885;125707;184703];
[104851;1;3;5;5;17;9;45;55;151;751;415;2139;8071;2309;27641;29743;47183;21437];
[104882;1;3;3;7;9;47;51;31;261;237;1695;1065;4503;7167;25791;39659;90145;130481];
[104920;1;1;3;3;21;27;53;249;407;779;1315;1005;6953;14959;2265;61645;118623;254067];
[104941;1;3;1;9;13;25;33;225;467;325;1513;1237;1569;8749;1587;4699;19893;163597];
[104963;1;3;5;5;29;29;1;55;437;575;149;791;4243;4405;22963;64125;21631;25819];
[104989;1;3;5;3;25;9;19;27;419;139;2035;2065;1925;11499;20053;13161;15115;120891];
[104999;1;1;5;9;7;9;113;3;195;555;863;595;6569;9819;14727;38285;13737;130903];
[105006;1;1;3;7;19;17;35;107;489;285;247;3103;2919;11163;2811;62081;42989;24495];
[105040;1;3;1;15;17;5;123;221;117;689;1567;3803;5801;14121;23263;8851;41559;226271];
[105066;1;1;1;15;21;39;87;135;485;59;1899;2483;2599;8783;6129;55407;7291;217117];
[105089;1;1;3;11;27;53;45;241;51;829;121;3047;6785;15127;13923;47913;9087;112005];
[105120;1;1;1;13;5;9;45;37;235;497;871;1471;2895;247;9085;39611;63445;218391];
[105125;1;1;5;3;5;29;23;155;339;293;535;1569;2625;2867;4639;53049;88721;96903];
[105137;1;1;3;15;5;25;17;45;47;683;949;1381;5929;9539;3345;59883;19071;200411];
[105179;1;1;1;11;11;5;71;15;469;749;1763;541;7109;11731;8463;35145;121795;219441];
[105215;1;3;7;11;5;17;63;159;69;993;1519;1531;6913;3901;22131;42909;41299;261813];
[105244;1;1;3;5;21;27;27;197;339;275;2011;2263;855;1939;21561;30577;6515;124417];
[105258;1;3;5;15;25;35;91;31;269;857;327;3643;3211;14401;18399;9007;12897;25555];
[105263;1;1;7;15;19;47;127;157;407;867;943;1509;3113;49;32131;46975;130013;66457];
[105280;1;3;3;13;31;45;59;135;67;825;157;2441;2851;2355;28115;14075;106317;145945];
[105286;1;1;1;15;27;27;5;211;85;749;671;1341;6865;10027;14419;20159;126647;147893];
[105380;1;1;1;7;25;49;115;231;65;161;1409;573;2859;639;12567;58459;73781;136893];
[105397;1;1;1;7;11;57;97;141;327;975;1799;3051;365;9331;14583;16723;113153;224127];
[105409;1;3;1;13;13;17;105;109;151;41;1903;1685;2285;5697;16559;34133;106045;203217];
[105427;1;1;1;3;29;61;43;255;269;277;1847;3781;7991;131;9833;34305;10763;41869];
[105452;1;1;7;3;11;1;85;89;247;99;419;2041;3729;10301;5291;36033;31749;261871];
[105469;1;3;7;9;27;27;41;3;303;893;697;1631;5015;4233;22827;3913;22245;121193];
[105472;1;3;3;13;19;11;15;239;419;123;1213;185;4465;4909;25421;18363;72537;167939];
[105477;1;1;3;5;13;49;57;197;19;877;1465;2933;5909;7147;1039;37035;91209;126013];
[105490;1;1;3;5;23;7;63;179;59;47;1501;1863;2949;13959;28131;29705;107975;155251];
[105505;1;1;1;5;25;51;77;169;327;585;1531;3367;3075;6313;26725;453;68635;173787];
[105529;1;3;7;9;5;15;43;45;311;367;297;2249;7507;4785;22685;37279;121683;141453];
[105530;1;3;7;15;17;33;43;251;281;345;1659;3729;7629;6179;26107;64255;88003;2545];
[105604;1;3;7;9;17;13;71;49;341;495;1975;173;5773;3821;6615;50917;53781;75557];
[105614;1;1;5;13;17;21;121;35;195;367;1191;1331;6423;8425;7705;59117;44575;225431];
[105622;1;1;1;5;25;39;89;65;449;491;211;2949;4493;23;22571;4801;50525;222563];
[105625;1;1;7;5;7;21;15;171;443;225;577;1841;8139;15071;6095;60185;71957;244753];
[105652;1;1;5;9;31;33;21;195;415;1003;441;627;2339;8245;11187;55933;59045;177455];
[105687;1;1;3;9;31;29;7;15;31;577;1435;1317;2923;3807;29693;45857;61787;213565];
[105693;1;3;7;15;17;51;65;87;295;811;753;1113;7695;275;28331;46363;53247;166993];
[105707;1;1;5;11;15;31;31;47;273;383;1831;3821;1337;13257;415;35453;15293;173095];
[105721;1;3;1;13;19;21;63;199;159;475;1257;3119;7083;2861;21099;16873;83583;186289];
[105730;1;1;7;13;15;23;11;103;387;899;261;2863;3681;5683;5587;64655;7411;148633];
[105736;1;3;1;13;1;45;5;173;379;287;1451;2253;3811;10963;20285;59681;81285;48523];
[105753;1;1;5;9;27;17;57;25;499;289;1083;3057;793;5251;10519;36647;67751;237487];
[105759;1;1;3;1;17;13;23;73;1;951;111;3769;3611;4827;10081;55919;21411;127303];
[105760;1;3;1;1;29;35;93;139;179;217;1839;1907;4365;1813;31985;28927;39319;233413];
[105802;1;1;1;7;7;47;37;127;449;473;311;3833;3263;4163;15985;50159;82685;73273];
[105822;1;1;1;3;3;5;69;95;101;115;1575;63;1897;13733;22149;8793;82983;192553];
[105832;1;3;1;5;3;57;121;13;291;975;505;3105;6929;12737;25869;29173;16757;17733];
[105865;1;1;3;13;13;23;51;51;239;795;877;1547;6533;11497;14309;32941;128109;187313];
[105873;1;1;3;5;19;37;57;223;509;379;1235;1881;4133;13219;5479;36781;56155;231001];
[105874;1;1;1;5;25;45;111;183;37;875;1487;3771;5593;6835;10921;40697;114455;259491];
[105880;1;1;3;11;13;5;43;47;7;435;1543;3835;1631;8889;23567;24705;26687;14261];
[105899;1;3;3;11;1;13;51;171;433;1011;679;1307;1683;7379;7163;29727;40209;259973];
[105902;1;3;1;5;25;33;111;11;303;815;1883;263;7907;12637;19203;64151;55739;240509];
[105909;1;3;5;7;23;51;3;183;425;47;231;807;1891;10943;17873;20209;60871;30269];
[105919;1;1;1;1;1;23;11;183;351;5;37;3883;1291;15933;11379;53057;61389;240547];
[105922;1;3;1;5;7;53;97;29;239;805;1929;1001;5103;11;24695;7825;109755;254717];
[105946;1;3;3;11;15;37;115;117;391;313;1761;3627;3931;10277;1767;25401;123827;60463];
[105975;1;1;7;9;9;61;23;65;473;579;1979;415;629;3613;27409;46909;3281;3883];
[105992;1;3;3;13;25;17;71;247;297;451;153;1949;2727;6427;19815;54013;129363;248237];
[106005;1;1;7;7;29;9;57;171;159;287;693;1365;4665;5255;15013;21225;125409;5893];
[106057;1;3;3;1;9;43;13;139;359;267;115;2025;693;4789;10353;60459;30835;56575];
[106081;1;1;1;7;23;35;35;77;245;705;75;2841;1683;6109;19661;49021;25019;7297];
[106093;1;3;1;5;1;19;49;53;19;435;1471;409;7051;7057;3621;42925;59551;70941];
[106117;1;3;7;5;21;27;39;221;389;255;537;597;7729;10473;6657;13261;11303;112409];
[106127;1;3;7;13;29;29;81;107;329;25;537;561;2247;10371;30031;20537;28437;113319];
[106135;1;1;5;9;9;7;89;155;337;829;755;3259;3563;11849;31179;43297;79601;187545];
[106141;1;3;3;5;11;63;101;159;357;627;587;3233;405;4083;5953;44541;110723;240573];
[106189;1;1;3;15;5;39;87;231;455;195;1603;315;3869;6375;745;28349;56469;119033];
[106190;1;1;7;1;11;7;79;47;391;585;1299;3237;7345;15959;4293;43285;111737;215923];
[106197;1;1;3;15;21;53;113;73;265;589;299;289;3983;1653;17407;15287;53199;44221];
[106214;1;3;1;3;1;13;31;41;509;523;401;2647;2731;5699;15649;51737;81249;230865];
[106237;1;3;5;3;15;53;91;209;249;243;1119;2531;319;9259;26555;59579;28767;235073];
[106245;1;1;1;13;29;25;57;3;413;945;841;1151;7167;2545;7283;3947;109375;148677];
[106257;1;3;3;7;29;27;81;141;21;771;577;897;73;13081;30035;49213;90627;7483];
[106300;1;3;1;13;23;11;19;159;183;789;683;2071;7107;3025;27333;9571;69621;48529];
[106335;1;3;1;9;5;43;7;123;341;75;1709;135;7929;14563;6849;32783;91971;223789];
[106351;1;1;7;3;19;13;45;229;7;559;1895;2649;7593;1063;17715;45019;29743;37819];
[106370;1;1;5;3;11;25;11;169;249;415;249;209;2223;5947;23381;12109;37697;131729];
[106375;1;1;1;7;19;47;125;117;235;825;801;921;2363;1261;20529;65445;55315;173561];
[106376;1;1;1;1;5;39;31;11;239;333;727;3991;1453;2201;18129;3513;112057;109673];
[106384;1;1;7;5;21;59;37;255;261;1;1401;1101;1233;3813;22809;39389;66263;191623];
[106403;1;3;1;7;5;51;73;85;319;671;1149;1631;6021;10711;3813;36485;106147;202021];
[106405;1;3;3;13;7;63;59;253;337;453;61;209;2809;10429;28069;55971;57985;244779];
[106406;1;1;1;9;27;59;45;101;427;713;1667;2965;6161;1235;8793;2387;66031;85151];
[106429;1;1;3;1;5;25;101;7;449;149;823;725;6803;11949;13009;14785;45633;241957];
[106447;1;3;7;15;29;45;103;151;159;23;1353;3541;5909;4173;31391;16179;38289;206603];
[106466;1;1;7;7;23;3;97;29;141;383;379;3189;4399;4545;30797;55827;126223;97049];
[106495;1;3;3;7;25;35;61;15;349;929;65;3697;7637;12239;29051;36001;114513;151069];
[106532;1;3;3;11;19;1;23;245;9;689;1251;1043;2393;15817;31561;21059;3435;228091];
[106542;1;3;7;3;23;17;121;147;427;47;905;3877;2301;15709;13599;48895;108955;53219];
[106547;1;3;7;3;25;31;53;143;1;841;1691;749;6713;5373;23487;25749;13911;240923];
[106564;1;3;5;3;7;39;101;83;159;187;583;721;7745;1119;61;27319;35157;241729];
[106576;1;1;5;11;27;21;79;199;179;463;987;3909;1741;503;12339;15323;4063;180337];
[106586;1;3;7;11;23;43;7;115;489;215;209;3213;4057;13221;27061;52037;34921;36385];
[106592;1;1;7;1;15;13;113;55;207;839;1939;4095;5629;7647;12753;59739;60779;196589];
[106597;1;1;1;5;5;13;113;243;297;513;1615;1513;1247;4025;20901;44775;86987;75437];
[106610;1;1;3;7;7;35;77;115;223;929;1683;949;2191;15533;29471;24103;102475;173027];
[106612;1;3;1;11;23;37;7;179;287;267;319;3147;1481;12297;28185;51423;7505;236225];
[106635;1;1;3;5;27;5;71;95;289;121;939;3543;365;4903;10091;3903;111155;83517];
[106640;1;1;7;9;29;3;87;245;313;973;1181;3389;3697;13237;13703;31557;17269;17329];
[106673;1;1;5;11;5;41;117;51;239;907;809;741;5327;3403;11825;46981;93485;38053];
[106691;1;1;7;1;25;41;5;169;11;599;1451;2189;7255;8441;11169;58313;4387;69];
[106724;1;3;1;13;5;21;75;229;153;355;1511;175;4793;12111;25321;39983;84205;195003];
[106731;1;1;7;1;17;61;67;181;69;149;921;1107;6319;431;29481;12507;13109;29527];
[106741;1;1;5;5;27;47;69;119;469;193;513;1573;7421;2723;20997;59585;49645;261259];
[106748;1;1;3;9;27;41;41;3;181;803;1281;2937;6745;5629;8403;18987;98411;128321];
[106765;1;3;3;9;5;29;55;223;309;841;1049;1163;3497;8935;8529;51367;90693;77463];
[106789;1;3;5;3;3;59;23;31;309;907;107;3471;4365;14463;24093;35435;24587;151163];
[106822;1;3;3;1;11;37;99;95;485;601;1797;891;5645;8927;22085;5185;18495;260455];
[106856;1;3;7;15;31;61;5;177;159;287;311;1377;1419;4387;25297;22505;100937;223785];
[106861;1;3;3;3;27;31;45;171;95;507;1475;4013;2781;133;6857;3367;103455;69559];
[106870;1;3;3;7;9;51;47;247;213;665;1929;2799;5513;9183;20197;14831;75277;187565];
[106883;1;3;1;9;13;11;15;253;145;31;847;1579;5513;9;3327;46049;16709;56353];
[106895;1;3;3;3;9;17;59;131;3;621;1209;3415;2999;127;629;7925;6109;59743];
[106928;1;1;5;15;29;35;87;197;495;671;51;293;3943;7969;4739;10161;119943;97217];
[106938;1;1;1;9;25;57;61;197;139;899;783;3835;3407;16301;19033;33359;56309;16237];
[106979;1;1;5;11;25;47;95;121;197;511;227;2281;5805;10581;14885;19685;28075;25431];
[106985;1;1;3;9;1;43;59;105;319;45;1567;905;7641;2199;3979;13717;22829;44777];
[107005;1;3;7;1;19;49;105;53;227;293;989;697;2553;4561;14851;8999;74815;207475];
[107012;1;1;5;11;23;3;85;29;419;847;1385;3857;641;14951;25629;18019;2497;24723];
[107019;1;3;5;15;5;11;51;225;179;695;787;663;7051;3595;4987;53315;88693;7915];
[107045;1;3;1;13;17;51;51;247;431;555;603;3301;443;629;26509;32047;54433;208297];
[107052;1;3;7;7;13;41;95;105;135;443;377;1259;3301;6945;11677;33869;107799;186567];
[107082;1;1;5;7;31;17;85;129;409;781;983;25;6877;83;12625;31919;41989;55195];
[107089;1;1;3;3;7;45;37;45;237;967;1371;657;7983;3121;32707;25757;49987;92683];
[107118;1;3;1;1;19;57;63;25;355;893;2017;1671;7343;4451;28243;22157;103901;178017];
[107163;1;3;7;13;17;59;81;99;329;117;1395;2565;5725;2371;343;4713;35077;49793];
[107202;1;3;7;15;31;19;87;243;411;339;1063;117;1827;1583;12571;23153;3363;81695];
[107238;1;3;7;1;3;49;95;133;295;433;1885;843;6679;13673;32277;59085;46957;217037];
[107242;1;1;3;9;23;53;45;183;79;55;1267;283;3249;4101;8107;54473;126141;127235];
[107244;1;3;5;7;19;57;113;205;37;817;929;3643;2231;15725;1733;7877;116741;254529];
[107264;1;3;1;9;9;7;75;45;83;203;1401;445;1043;239;30865;32189;91081;180681];
[107273;1;1;7;7;1;3;61;255;483;599;897;1601;5189;13279;4981;37235;117505;66625];
[107291;1;1;3;13;29;43;65;73;213;307;959;2735;5155;16063;15745;6225;50159;182445];
[107293;1;1;3;9;31;61;73;185;457;687;1887;4041;3455;4739;16399;40929;32631;179031];
[107312;1;3;3;15;5;45;1;241;187;23;63;2497;7759;9175;11003;40579;45769;107133];
[107318;1;3;3;7;5;63;7;67;31;917;1825;2037;2527;9767;2665;18573;14289;21583];
[107335;1;1;5;15;15;25;51;127;261;925;1651;769;7779;7327;7239;20437;9947;144697];
[107349;1;1;5;1;5;13;99;7;269;135;345;1851;7963;457;24573;32529;127359;157755];
[107350;1;3;5;15;21;17;31;115;321;351;117;1301;2455;3363;14213;62903;75273;261119];
[107363;1;3;7;1;1;9;53;209;319;489;827;1365;4709;7419;28213;56095;9611;234877];
[107390;1;1;5;5;1;7;49;15;377;309;1701;1775;5571;12437;27521;54753;68977;138549];
[107405;1;1;3;11;9;29;67;21;411;647;983;1075;2387;13355;1781;56129;87235;260133];
[107408;1;3;1;11;5;57;71;159;345;853;745;3733;1607;7265;20097;18911;101141;70495];
[107427;1;1;3;9;1;43;127;127;471;465;1777;1879;4655;12925;24935;58445;78303;200463];
[107433;1;1;1;15;5;33;63;17;401;831;1559;3547;7869;13901;18185;9399;65859;185315];
[107444;1;3;7;1;25;21;17;175;401;833;847;3593;1283;14745;11827;1987;89299;187369];
[107514;1;1;7;13;29;31;45;219;177;369;1313;3015;5859;1829;8793;49109;97581;233179];
[107522;1;3;3;15;17;31;61;215;231;495;1307;3067;3187;8813;22505;14055;30773;177955];
[107545;1;3;7;15;9;61;57;105;89;267;233;905;3727;1841;31875;32499;27003;208491];
[107582;1;3;1;11;31;9;63;55;213;209;1625;2635;4335;15201;6127;11097;37991;62813];
[107590;1;1;1;5;13;49;127;249;339;525;1943;2935;3255;5199;6869;6325;731;51085];
[107593;1;1;5;7;7;29;59;187;463;409;1321;377;7361;8303;20385;39649;81379;235555];
[107599;1;1;5;13;15;45;99;57;217;535;1747;4081;4781;1005;25197;23853;90587;189579];
[107604;1;1;7;7;23;31;1;151;339;447;523;2609;5917;6965;25815;62797;104083;245917];
[107608;1;3;5;3;7;37;79;253;423;511;1477;3121;5557;1413;31075;22249;117639;243543];
[107627;1;1;3;7;5;31;93;117;135;235;745;3287;4451;2487;15179;62229;18247;150277];
[107638;1;1;7;15;31;57;125;219;433;629;1809;2499;6083;7631;31495;63183;28533;120579];
[107666;1;1;1;13;31;47;77;73;343;867;1055;1121;3035;15693;6971;50231;16527;190795];
[107678;1;3;7;7;11;1;5;215;87;885;1429;1277;3831;9341;22011;34585;56167;65301];
[107701;1;3;1;15;13;53;91;59;277;819;453;3191;757;4729;20605;4283;110745;233655];
[107720;1;3;3;5;17;47;69;117;113;775;935;1879;2239;5877;18337;50895;44891;2759];
[107723;1;3;5;1;27;31;77;65;355;405;825;2419;3337;10179;27665;35459;13721;154227];
[107725;1;3;3;7;23;61;9;241;239;85;485;2659;5371;16175;28691;49109;124433;167033];
[107731;1;3;3;3;11;57;37;155;443;249;1913;1347;6569;5357;4231;58273;50707;57097];
[107737;1;1;3;3;1;7;87;115;259;807;45;2997;63;16313;12507;39925;17699;24411];
[107767;1;3;3;1;19;59;97;209;247;395;21;1803;2547;11607;15703;58099;111907;196101];
[107779;1;1;7;13;27;61;73;183;493;953;445;567;7373;15275;30081;539;89365;3455];
[107788;1;3;1;3;25;35;3;105;243;781;1937;2781;7849;2159;2221;58005;89313;182183];
[107799;1;1;7;15;21;7;67;163;179;453;581;2245;3915;8985;16809;35113;93605;79009];
[107819;1;1;7;5;29;57;13;75;387;511;331;1119;307;6145;3841;49987;67335;120419];
[107833;1;3;1;5;13;21;119;207;453;943;137;2245;7771;5737;9541;29209;106867;110513];
[107881;1;3;7;13;7;3;99;129;245;687;883;1321;1131;6661;7437;1345;128247;167877];
[107901;1;1;3;11;7;57;59;3;217;549;85;2607;215;2249;3963;42931;33747;226265];
[107911;1;1;5;5;29;23;115;215;103;427;1689;831;3293;14055;3735;49521;17703;182887];
[107930;1;1;1;15;5;43;27;181;217;955;225;2731;7347;14123;26169;4371;26907;15017];
[107936;1;1;7;7;31;55;63;223;61;63;431;2779;3169;14323;2945;63913;85407;76511];
[107980;1;1;3;11;5;27;113;75;313;697;13;1853;7467;5701;16749;17939;13475;39807];
[108004;1;1;7;5;13;53;55;115;125;341;321;3291;2675;13659;16819;45397;42917;104361];
[108008;1;3;3;15;27;47;19;213;441;605;593;2287;4847;10505;22185;36157;10881;87799];
[108016;1;1;1;11;15;39;109;3;469;371;1743;2789;199;8703;7407;3353;103417;73319];
[108066;1;3;7;5;25;61;77;111;263;399;1579;3447;6205;5945;28099;39183;77003;115001];
[108071;1;1;1;3;1;7;57;193;379;923;151;2227;7285;2371;24567;34037;80655;125499];
[108107;1;3;5;7;13;15;5;193;55;319;1851;2439;8071;5329;3155;64669;18547;238997];
[108110;1;3;3;11;7;23;1;203;333;951;153;1249;5093;407;361;14175;45149;186291];
[108124;1;3;1;11;13;19;89;229;139;981;455;907;5109;8513;23823;54933;69985;227679];
[108145;1;3;5;13;23;47;65;123;115;759;375;1283;729;11045;22015;18287;112603;75911];
[108148;1;1;3;1;5;43;91;123;219;409;517;3999;1409;5949;15727;62705;73573;198447];
[108158;1;3;3;3;5;23;95;51;275;455;1831;2427;3779;10209;30839;23393;25681;8715];
[108164;1;3;5;3;9;5;61;97;497;397;695;517;3313;4911;1961;45805;99135;216657];
[108197;1;1;1;7;13;41;19;31;103;1005;73;1855;405;12395;19979;17663;105183;28493];
[108198;1;3;1;11;27;27;69;149;1;225;1809;1367;3663;6545;8475;40837;64459;66705];
[108219;1;3;3;1;29;21;113;149;215;443;1069;3437;1793;13573;28285;33707;29127;40715];
[108222;1;3;3;5;21;9;53;181;455;283;245;3999;875;9799;10963;31603;34907;64977];
[108224;1;3;1;11;31;51;29;103;61;529;777;1097;445;9169;6305;4513;60189;164103];
[108227;1;1;1;3;21;5;87;11;461;637;1283;1471;1429;2401;12163;29401;30089;41745];
[108290;1;1;3;3;17;43;13;153;73;419;747;279;7195;4383;26345;28365;97753;208989];
[108302;1;3;7;1;17;55;103;151;327;575;1923;1533;4699;2171;15447;64047;59007;54523];
[108329;1;3;7;7;3;51;79;39;403;599;161;2465;4911;10327;23599;3267;44177;184231];
[108335;1;3;3;15;5;19;57;83;507;927;665;3471;5037;2051;22923;36813;97393;102715];
[108338;1;3;3;13;11;19;91;179;113;295;855;2071;3265;4089;8627;7461;23855;53675];
[108362;1;1;3;5;21;41;11;227;87;417;209;2013;4849;5291;22073;40235;71283;140785];
[108398;1;3;3;5;29;57;95;65;177;177;1973;563;5249;337;7611;45099;15443;46583];
[108405;1;1;7;3;3;5;107;75;31;293;821;1837;2363;13621;8793;29841;127201;131707];
[108409;1;1;1;5;1;45;69;61;157;999;183;3431;3487;9461;17545;26973;115527;58419];
[108431;1;1;7;7;27;5;125;153;191;745;125;2807;5043;10657;24487;19517;31735;42421];
[108449;1;1;7;9;25;37;73;255;141;229;1723;1331;6089;13109;30683;2335;111517;105411];
[108474;1;1;5;7;3;61;79;203;423;669;1757;1725;4239;7013;28591;61853;81103;39813];
[108488;1;1;3;7;21;27;23;119;441;113;1019;285;53;8643;31689;2629;126573;60835];
[108530;1;1;5;11;29;49;23;55;441;809;1177;1371;5945;6461;11537;12287;85637;232065];
[108545;1;3;1;15;5;13;19;209;105;897;565;3209;487;9837;22169;26317;39907;185193];
[108551;1;1;1;5;23;45;49;55;501;213;1217;3159;733;5889;5475;4953;37317;100369];
[108558;1;1;5;1;19;5;57;137;361;605;1077;2015;5511;4667;18457;45979;120253;203397];
[108585;1;1;7;9;19;19;11;187;5;647;275;1265;7587;16183;369;31885;58347;36829];
[108613;1;3;5;3;31;31;7;105;359;839;641;3215;4807;13397;885;52867;57125;180607];
[108638;1;1;7;9;19;45;43;211;429;757;1637;1569;935;8899;24823;18599;111373;190979];
[108642;1;1;7;7;13;47;3;241;467;209;323;3467;4397;15395;15373;14499;92443;65931];
[108653;1;3;3;5;5;9;67;115;45;279;1753;1575;8127;9651;5169;25643;29671;214383];
[108671;1;3;7;7;29;7;37;205;495;445;1771;1439;3577;10423;10865;26851;15251;63373];
[108675;1;3;1;9;29;13;45;61;153;193;1407;1075;4023;2367;1147;51277;52975;123061];
[108684;1;3;3;3;31;25;113;173;345;565;145;3437;7051;12557;27919;41733;76717;192645];
[108687;1;3;3;7;3;55;35;219;55;467;635;3833;3753;1099;15301;53121;120807;70481];
[108696;1;3;7;7;13;1;121;191;71;193;1891;2303;1401;9143;31297;38979;43093;138941];
[108786;1;3;7;5;17;51;83;201;231;423;511;1301;6075;475;2603;49327;78565;220827];
[108792;1;3;1;7;5;61;23;11;9;711;251;1383;613;6213;8921;27267;66009;28575];
[108795;1;3;1;3;13;13;61;211;353;883;343;1089;2041;7781;25285;9053;76801;153009];
[108818;1;3;7;5;17;61;67;69;361;937;949;1483;2825;3753;16533;17277;16539;140521];
[108830;1;3;5;9;7;19;31;239;357;561;1583;3059;2023;2213;11283;18603;83487;162415];
[108836;1;1;3;15;15;59;9;43;353;203;765;1907;2733;3747;30617;32671;119005;72131];
[108839;1;3;1;7;17;61;55;113;439;75;703;2741;1059;4561;15923;17153;32563;79681];
[108851;1;1;1;15;11;57;91;245;187;185;1859;1209;3247;10863;22421;47287;26831;200935];
[108875;1;1;3;13;11;39;61;211;51;197;861;2965;4691;9955;2289;28795;61537;235359];
[108883;1;1;7;1;31;37;121;107;79;521;371;983;6189;4515;25691;26933;123189;70033];
[108895;1;3;3;15;19;33;31;237;35;877;1013;3445;573;1145;27781;26327;117451;142339];
[108908;1;3;3;15;15;9;17;185;151;499;493;1331;1587;12657;22577;7957;126253;57971];
[108953;1;3;7;15;3;29;43;105;423;601;793;1011;6657;7287;18561;46993;72945;233051];
[108956;1;1;7;5;15;17;125;141;75;877;281;2011;4217;9785;7587;42863;35585;212795];
[108963;1;1;3;3;3;37;67;129;433;233;115;687;6253;12805;10935;49963;91675;241951];
[108989;1;3;1;5;3;41;3;233;317;959;1407;1251;743;4165;15561;41165;22393;111633];
[109001;1;3;3;15;17;15;53;245;109;413;1149;35;2931;11635;27091;63659;33973;16867];
[109009;1;3;7;13;3;43;83;201;367;275;235;1795;4041;13539;22345;31451;83985;3527];
[109052;1;3;3;9;31;47;63;117;195;497;453;1183;3857;14075;28057;13205;54331;54641];
[109083;1;1;7;11;11;39;37;183;213;537;1371;901;5255;11791;18993;58785;114113;229815];
[109090;1;3;5;5;13;45;77;165;329;439;2011;1845;4577;12457;16959;45943;37715;169775];
[109104;1;1;3;11;5;7;21;245;365;371;1291;2569;1791;6003;18619;18661;98551;89645];
[109121;1;3;1;7;3;51;49;245;151;919;489;3967;3157;7159;17207;19749;94455;112403];
[109128;1;3;7;5;9;15;17;201;273;669;1571;3915;1859;2569;28855;27225;116711;148377];
[109141;1;3;7;3;19;45;115;71;201;85;1349;3897;4941;10839;14781;36487;107037;109185];
[109146;1;3;5;13;11;11;35;19;213;41;45;4075;3163;12937;17487;28911;21289;198489];
[109155;1;1;1;11;7;35;67;23;451;235;717;181;6697;9359;24561;36187;125179;35119];
[109162;1;1;7;15;7;47;55;125;465;251;211;3137;4101;1341;2287;22149;45089;94173];
[109209;1;3;1;15;19;7;15;207;7;759;869;2337;6805;8287;13447;9963;7177;173505];
[109216;1;3;7;13;15;3;65;143;291;511;939;669;4095;1931;26015;18253;102461;93837];
[109243;1;3;1;5;23;3;19;121;489;583;1425;627;4229;5343;3759;17845;105369;132239];
[109265;1;3;3;9;29;9;17;153;111;879;1225;979;2687;10477;10105;18091;37825;28077];
[109282;1;1;7;9;3;51;75;101;197;551;89;1441;607;14025;30411;26887;3435;32977];
[109306;1;1;7;3;25;29;95;123;197;767;1513;721;4149;10873;32247;4469;42297;49651];
[109316;1;3;5;15;11;3;77;161;309;923;513;161;6447;9811;9209;21413;8611;237557];
[109334;1;3;1;3;23;11;61;107;317;771;1469;3367;6607;11495;12271;59989;52483;194761];
[109359;1;3;7;7;23;1;37;47;185;863;1153;3517;6165;3921;19311;37339;112477;204915];
[109373;1;3;7;7;15;61;9;113;175;305;1759;2933;2139;3591;15303;54479;126511;255205];
[109386;1;1;1;3;29;43;19;183;121;577;1329;1737;4373;5577;24023;40103;22333;123423];
[109394;1;3;5;1;29;1;5;177;271;431;139;705;4319;9301;15887;13253;13275;233317];
[109403;1;1;3;7;21;3;13;51;459;359;1721;193;4887;7805;20615;28813;82427;57853];
[109409;1;3;3;13;3;29;43;95;339;993;979;2323;7505;10203;9475;16513;21651;104871];
[109412;1;1;3;15;11;5;97;127;397;25;507;1839;2313;13399;899;25713;94363;178287];
[109427;1;1;5;5;9;53;95;171;107;129;1041;3583;5479;943;21435;36481;85519;169651];
[109439;1;1;1;1;1;11;17;249;277;805;1827;2705;3015;9033;25019;38593;59235;21145];
[109464;1;1;7;3;7;59;107;213;109;213;555;3463;953;3173;18947;2863;27889;32493];
[109467;1;3;5;15;21;11;99;131;287;513;1393;3327;7347;4343;8805;29571;97151;97313];
[109476;1;3;5;3;17;53;23;21;227;291;111;1951;6593;16325;31725;31997;116907;181027];
[109488;1;1;5;3;15;57;93;153;345;257;169;795;3907;5669;25447;28775;1489;216417];
[109497;1;1;1;5;19;19;113;55;431;685;1839;711;4909;10211;25765;37;72657;79769];
[109523;1;3;5;7;19;17;93;145;99;799;1615;1583;7705;1069;30259;37951;78965;16203];
[109551;1;3;7;13;23;61;119;49;413;1021;415;465;7395;31;16415;1009;9843;86531];
[109556;1;1;3;15;17;21;83;69;411;1;269;1391;295;13649;21649;62453;11457;215375];
[109566;1;3;3;7;25;53;95;99;447;323;27;1595;3771;16099;31523;14405;66999;65733];
[109598;1;1;3;11;25;29;19;95;101;661;537;641;1455;16151;29087;54009;89395;2223];
[109628;1;1;1;11;11;33;91;227;449;661;1621;1743;2859;9797;32397;41767;116325;6839];
[109643;1;3;3;7;31;41;15;139;53;789;25;67;1131;5987;14091;37259;70313;6633];
[109663;1;3;7;13;21;29;71;245;497;493;207;3221;3695;3045;1497;29235;65113;82015];
[109674;1;1;7;5;29;29;87;197;123;323;773;157;2925;9235;31625;58187;121457;25561];
[109688;1;1;1;9;3;15;99;55;133;757;1405;997;5201;8971;6095;33309;35587;254545];
[109691;1;3;5;9;19;57;85;45;429;823;1369;933;1971;13753;11351;45805;16527;129907];
[109704;1;3;3;15;23;15;35;89;477;875;1087;2837;1093;617;18687;53269;63447;226393];
[109715;1;1;7;9;27;37;23;107;265;485;1975;3159;4065;10089;26975;45067;4241;49051];
[109717;1;3;3;1;29;53;89;129;149;717;749;1481;7829;15887;23185;30667;11749;188963];
[109746;1;3;5;9;13;47;119;135;407;99;1773;2307;7885;4013;25723;53519;37487;205671];
[109789;1;1;5;1;11;27;121;213;147;669;799;485;4275;15909;30583;45925;90365;226901];
[109794;1;1;3;5;1;19;81;109;217;949;1637;3413;5957;7293;17337;63857;103815;80805];
[109868;1;3;7;3;9;43;119;251;345;3;203;829;3391;2575;6859;50849;22221;227581];
[109886;1;1;7;15;13;43;7;23;101;89;1747;1231;1883;13363;10981;59179;59555;242021];
[109888;1;1;5;5;23;15;93;183;231;891;1745;2665;1689;8515;11717;35643;113067;233757];
[109903;1;3;7;11;29;21;13;59;103;105;483;863;2711;7917;29279;53931;7011;60075];
[109908;1;1;3;15;5;37;101;163;31;575;2029;1625;4545;12579;15175;32667;59497;63653];
[109912;1;3;5;7;23;37;61;101;273;49;1943;3381;491;4079;20341;26463;122261;77965];
[109927;1;1;3;15;9;51;53;89;175;487;1583;1797;4353;1339;19613;26913;78955;166523];
[109936;1;3;3;9;27;57;25;207;233;675;661;2629;6971;8723;31199;47215;36931;28347];
[109979;1;3;1;3;31;15;123;17;211;883;1861;2747;8075;5373;23521;46217;86629;171777];
[110005;1;3;5;9;11;43;45;171;465;835;603;2121;409;1643;20327;63211;129479;223113];
[110010;1;1;5;7;13;57;83;233;307;489;941;1723;6149;5557;2053;17377;31597;176051];
[110017;1;1;7;3;11;11;85;163;169;989;1289;2749;7681;4679;645;36589;85907;194713];
[110041;1;1;1;7;3;57;39;149;463;947;481;1163;7171;8539;28991;61235;74487;107051];
[110042;1;1;3;7;9;57;89;101;231;163;1355;1393;5823;7565;26285;13523;130329;26099];
[110047;1;1;7;15;13;59;111;35;265;927;125;1881;5397;757;23845;9677;76077;163361];
[110048;1;1;7;9;1;63;61;157;389;143;1445;881;3609;9955;11159;59677;45831;138345];
[110053;1;3;5;7;5;45;65;23;257;589;905;3651;743;117;30307;7415;103331;252889];
[110054;1;1;7;13;3;57;113;91;217;967;481;989;4795;3549;23717;60793;80281;19977];
[110057;1;3;3;1;15;37;113;245;239;575;197;2803;7743;13447;3601;56981;76381;13321];
[110091;1;3;1;11;27;33;99;151;43;835;1951;1957;2983;6781;9319;2119;40533;118325];
[110093;1;3;3;7;27;19;23;243;347;477;1661;1891;2439;2485;31743;1427;20317;90803];
[110112;1;3;1;1;3;59;71;129;21;3;449;629;3657;4045;8305;40461;60927;38529];
[110127;1;3;3;7;9;11;85;185;369;451;887;3709;6931;111;1379;8741;58777;188045];
[110178;1;3;7;11;23;13;77;141;99;543;725;2439;6825;1361;2785;5345;5941;234751];
[110183;1;1;5;5;17;55;69;9;431;585;1049;165;1705;14907;8655;12485;22783;91195];
[110184;1;1;7;11;29;41;91;137;17;785;1151;2033;7031;15077;2241;21453;117947;128891];
[110195;1;1;1;11;17;53;113;195;409;275;1757;245;6263;14785;29159;43827;65027;248403];
[110307;1;3;3;3;5;15;23;41;261;891;1021;1999;4883;9233;10385;21953;50711;4247];
[110334;1;1;1;13;23;47;33;77;317;251;617;2265;7549;327;2317;41209;41063;120863];
[110336;1;1;7;11;15;17;25;105;253;713;1147;415;5777;2215;4207;33857;17001;260533];
[110354;1;1;1;11;31;45;3;25;329;45;1563;121;1413;16229;32485;54477;101025;64847];
[110356;1;3;5;1;15;59;113;203;481;545;371;1357;5549;3043;397;61483;59779;58159];
[110390;1;3;3;3;25;39;29;193;379;293;1173;3389;4231;11519;6681;28813;63609;13029];
[110419;1;3;1;1;27;57;37;249;441;905;463;3543;7203;10075;5373;46103;6685;146943];
[110452;1;3;5;7;31;51;21;139;209;219;1663;837;3351;6291;735;8715;33751;199485];
[110461;1;3;5;11;19;57;41;163;287;327;243;2891;1095;3959;5067;2867;16207;213089];
[110465;1;1;5;11;21;59;97;239;309;371;797;453;2595;4277;3771;5665;10075;56101];
[110466;1;1;3;15;17;29;103;33;449;525;961;3551;3611;14057;15971;26981;35169;130213];
[110468;1;1;3;1;5;13;39;211;387;797;1051;3287;3737;12953;3387;35107;78809;162907];
[110486;1;1;7;9;7;63;127;115;173;981;623;737;7625;12245;4195;61873;104301;250333];
[110511;1;1;1;5;19;5;123;43;209;741;747;1057;2683;15359;24121;38413;5823;62213];
[110531;1;1;7;1;23;13;63;165;309;323;247;3827;5451;4823;23925;56957;69765;259923];
[110561;1;1;5;1;5;49;51;65;31;257;1363;3031;5765;3645;16383;6347;30429;130557];
[110573;1;3;5;13;9;63;31;3;317;379;1345;2161;7787;2055;21507;20347;97021;183377];
[110593;1;3;5;11;15;59;13;139;415;821;639;1249;6349;15861;21377;22813;42839;76595];
[110611;1;1;7;9;23;11;25;115;393;153;1269;871;1323;1891;11619;3103;79813;39811];
[110614;1;3;1;15;27;37;63;253;1;855;1651;3111;6693;1825;22549;64189;18347;253425];
[110651;1;3;1;11;23;27;119;59;421;343;831;2679;5899;12087;15953;18601;109551;33895];
[110661;1;3;1;13;29;3;91;227;301;491;1045;2105;5189;13717;1095;6039;16229;215687];
[110665;1;1;7;3;11;53;85;25;23;293;841;3569;5335;8949;28665;15139;100807;155587];
[110701;1;1;1;9;31;1;77;149;181;5;915;1155;4717;2837;17545;3235;26811;124901];
[110730;1;1;3;5;25;27;47;215;425;195;1575;3961;3521;4197;9565;32523;125091;165543];
[110735;1;3;7;3;17;57;7;137;507;303;1123;1511;2465;4277;19959;31951;83157;62843];
[110738;1;3;3;1;27;43;79;191;265;167;665;4017;6613;1175;5427;47139;91517;32071];
[110759;1;1;1;11;29;63;9;39;303;1021;415;2157;5227;13557;4931;12541;74101;13189];
[110763;1;1;3;9;15;41;45;163;301;315;1433;1449;3589;15783;16069;16155;10527;69335];
[110768;1;3;1;1;1;5;75;169;215;115;939;1285;43;1941;27847;5245;51211;244817];
[110774;1;1;1;15;7;33;31;23;397;537;1415;329;6705;15015;18883;62895;21435;233075];
[110783;1;3;3;5;11;49;73;147;183;317;11;1997;1045;6015;29159;55195;105711;134727];
[110785;1;3;3;9;21;41;5;213;421;539;1269;1929;3701;2165;14997;21933;58167;239719];
[110809;1;3;1;5;23;63;37;27;21;547;1499;1621;141;5309;32257;47241;123617;243853];
[110812;1;1;1;13;31;45;47;91;165;1007;1295;4035;1461;10423;7747;7329;114599;169375];
[110840;1;1;5;3;21;9;75;61;35;745;31;4085;3645;16239;14979;15725;108859;56745];
[110853;1;1;5;15;11;31;13;229;417;147;1993;4043;7757;13507;15297;56119;2223;142275];
[110905;1;3;5;13;3;57;45;109;135;829;159;769;865;2583;15755;44343;84561;98621];
[110933;1;1;7;11;17;11;115;45;371;411;863;2139;3897;13981;16771;4587;25195;66077];
[110961;1;3;7;15;17;47;51;133;133;475;1363;3325;4287;4837;22077;60225;3097;246805];
[110962;1;3;5;9;29;51;127;125;353;519;129;1409;1497;3167;14163;24921;81343;129835];
[110974;1;3;5;5;19;39;95;109;229;1015;367;2373;709;6169;4089;13533;22399;118977];
[110987;1;1;5;5;17;21;91;131;309;739;1373;3723;6659;1119;27521;55589;34967;70831];
[110989;1;3;1;11;5;7;85;215;425;947;589;375;5943;13399;18307;27007;18919;200617];
[111007;1;1;3;15;11;37;111;179;259;517;1679;225;3493;15025;21751;40687;73001;214477];
[111011;1;1;7;15;17;41;109;129;427;847;1965;3269;5871;12331;26899;49791;103471;213789];
[111043;1;3;3;3;9;41;25;115;95;737;717;1545;841;14923;7409;45365;100139;77787];
[111070;1;1;3;15;11;3;63;23;425;433;537;1599;2691;11271;1695;40579;53507;73033];
[111088;1;3;7;13;9;21;85;31;337;583;1883;3877;7197;7715;21525;53273;11263;41907];
[111127;1;3;7;1;7;53;61;45;299;885;1391;3109;6851;6079;18857;44537;95713;146125];
[111140;1;1;1;3;21;49;95;105;419;315;365;3035;4169;5723;26921;62809;27019;243965];
[111149;1;1;3;5;11;39;71;89;249;11;1395;105;6637;4577;22979;32405;93163;58785];
[111229;1;1;1;1;27;25;125;85;495;697;1793;301;7665;12671;25359;38803;58723;189837];
[111230;1;3;5;11;17;11;61;211;19;901;1701;223;2195;15571;3529;34699;94607;196519];
[111243;1;3;7;11;15;1;111;1;381;145;293;3639;6931;13195;19985;58491;53067;184411];
[111267;1;3;1;15;31;39;39;101;17;431;1151;2465;727;12709;5377;5857;49707;76439];
[111287;1;3;3;5;7;1;3;39;357;339;415;567;7245;13943;7495;54133;119705;160615];
[111313;1;3;5;15;9;17;13;253;337;673;1745;2613;4635;14025;11159;50001;40753;172983];
[111356;1;3;7;11;3;15;19;107;393;1015;1441;181;5721;9987;15557;37263;90053;205685];
[111368;1;1;5;1;9;3;69;123;245;111;283;1581;259;275;813;12213;19639;7335];
[111409;1;3;7;7;1;55;101;63;259;705;653;3821;2081;6447;25471;15523;38827;68055];
[111419;1;1;5;7;27;9;97;149;445;341;167;3695;375;853;8143;36027;62729;197357];
[111430;1;3;7;1;1;37;97;103;493;319;1287;3787;4079;13049;14305;6665;4631;96225];
[111433;1;1;5;7;1;5;127;143;251;725;1759;2381;181;15741;9395;64441;44347;221697];
[111442;1;3;1;3;25;47;29;167;397;827;1255;3271;6307;13915;3131;19123;88619;62847];
[111467;1;3;5;1;29;11;59;203;245;553;617;1287;205;2291;3613;39933;116981;43595];
[111491;1;1;3;9;27;33;35;77;437;1003;119;253;6643;113;10587;41073;55371;233307];
[111503;1;3;7;1;29;63;1;231;373;995;1063;1385;273;14115;6899;62991;112003;80527];
[111527;1;3;3;1;31;21;55;115;393;685;245;1587;5617;267;19639;15169;14073;173091];
[111531;1;3;1;11;29;45;53;21;433;979;1067;2999;6279;4739;30835;61653;112893;75839];
[111541;1;1;5;11;23;25;15;107;325;981;1057;1181;4465;16291;1523;64497;129437;45067];
[111546;1;1;1;5;1;21;79;135;419;997;1967;747;2097;15397;4415;15807;79583;259561];
[111548;1;3;1;7;5;49;105;109;243;371;13;2297;2845;12569;13165;13551;75471;168579];
[111577;1;1;1;1;9;33;7;233;43;773;1121;3763;4047;15039;8165;25407;82561;215045];
[111625;1;3;7;1;17;41;105;129;333;687;1357;1197;1271;3835;15823;36777;94311;192321];
[111636;1;1;5;15;13;31;93;249;81;167;1681;1587;179;5755;27741;29437;100407;63287];
[111650;1;3;3;13;11;39;85;23;37;183;547;1255;1167;15961;23281;59989;99393;34983];
[111655;1;3;7;5;13;33;17;243;321;845;447;1997;4639;11175;24651;18281;82677;244543];
[111662;1;3;5;13;3;63;75;35;493;207;1707;1401;3687;11353;5461;23433;71259;93483];
[111673;1;1;3;1;19;61;81;133;115;957;669;647;347;8739;18451;39641;118677;136601];
[111699;1;1;7;13;3;13;119;187;111;181;1865;1613;201;3633;17805;46553;8899;100407];
[111727;1;3;3;9;19;33;35;215;235;893;877;3099;7597;13521;22473;65435;3205;44897];
[111729;1;3;3;11;27;3;101;201;215;373;859;1435;2637;6795;21157;3333;27797;199427];
[111741;1;1;7;13;31;33;85;205;273;565;2033;3451;7581;16223;1383;16297;1263;49065];
[111757;1;1;1;13;11;29;65;71;395;179;1193;3859;3075;10133;6463;34617;20173;203471];
[111781;1;1;7;3;7;29;11;115;465;695;1759;3137;6337;977;43;62501;13297;59319];
[111791;1;3;5;9;31;59;11;107;109;797;177;2891;2535;4305;19255;9591;84417;87381];
[111826;1;3;3;3;1;9;45;219;73;573;1477;3699;8145;835;7123;37167;53411;45397];
[111838;1;3;5;15;15;41;37;63;233;971;1497;1223;3909;11721;9217;41055;9779;199339];
[111854;1;3;3;7;17;61;91;237;313;841;7;3283;4049;10403;22157;4889;31903;188043];
[111861;1;3;7;1;25;3;59;87;191;725;1615;4057;3037;14597;17371;42221;73919;58009];
[111866;1;3;5;11;27;7;45;231;315;727;843;2191;7909;53;23309;55189;96193;174017];
[111868;1;3;5;11;27;51;127;187;209;883;429;137;4585;15195;16527;32571;30905;8137];
[111897;1;1;1;11;15;55;13;161;183;671;659;3669;4461;13691;17119;26877;52041;110103];
[111903;1;3;5;9;5;45;29;19;415;931;683;2987;3839;4529;3091;54457;115537;102671];
[111904;1;1;7;13;23;31;61;17;327;951;1333;713;4309;1955;22797;27007;106673;47177];
[111959;1;3;3;9;31;49;19;115;413;257;1799;3641;2075;15613;14293;16123;45131;209389];
[111975;1;1;7;15;1;15;27;63;463;825;1081;991;2641;5999;8551;41119;80251;189263];
[112018;1;1;5;9;7;55;125;97;245;997;457;1087;1297;3433;14887;24117;30689;184809];
[112023;1;3;1;9;23;59;81;233;341;943;1335;2819;2625;4957;14925;7917;107383;204493];
[112033;1;3;5;5;5;25;79;29;191;541;1295;269;613;5201;28639;52839;52865;75181];
[112036;1;3;3;7;19;45;35;201;391;317;1323;2733;3407;10273;32689;52153;108751;242493];
[112043;1;3;1;7;15;27;45;21;383;483;1857;3443;2263;11471;3697;63929;116399;229733];
[112095;1;1;3;9;13;27;19;37;181;811;1833;177;7689;10073;20229;31397;65415;68461];
[112113;1;1;1;15;19;53;65;209;433;783;1647;4075;3155;733;25603;39033;43109;151257];
[112136;1;3;3;5;9;37;61;75;497;825;1785;3709;1731;889;19325;57453;39095;190855];
[112153;1;3;3;13;3;53;21;39;483;833;1191;2829;1323;1877;17257;36077;47997;25349];
[112165;1;1;7;9;29;25;7;91;87;723;777;1865;7763;10995;15953;36111;21313;214417];
[112166;1;3;5;3;17;15;85;133;245;317;879;3237;7049;6501;13359;34063;124703;118289];
[112177;1;1;1;7;11;25;111;143;369;593;237;2787;1015;13059;23275;38453;90809;25803];
[112189;1;1;7;5;13;21;39;235;381;381;949;773;1123;9911;18115;47657;47849;197633];
[112226;1;1;3;13;15;57;47;203;483;341;137;1283;2847;5051;22593;60915;45123;258733];
[112237;1;1;3;5;29;7;23;127;493;543;747;3547;4433;5847;28999;18079;81205;231557];
[112240;1;1;3;15;9;63;17;197;75;387;1679;2631;1033;2757;18365;11957;98915;24223];
[112255;1;1;3;9;27;55;67;97;345;995;1151;1747;4889;13847;13237;9035;13461;10377];
[112265;1;1;5;9;27;13;7;77;399;191;137;2801;6379;15969;1727;27503;97385;147625];
[112280;1;3;1;7;5;9;103;163;489;615;1359;2635;3115;13795;18853;65225;26545;212065];
[112292;1;3;7;3;13;25;125;133;359;423;751;4045;1209;7521;6653;39171;125083;229399];
[112307;1;3;1;9;15;21;121;223;283;313;1807;3829;5279;10609;20113;7851;23731;245327];
[112316;1;1;1;11;15;13;63;253;311;369;1549;2803;2029;14967;14217;1387;104669;63375];
[112342;1;1;3;3;31;49;59;189;249;779;275;3761;3465;2205;11543;16973;126249;104769];
[112345;1;3;1;5;11;39;59;33;121;151;467;1011;1379;13955;20117;52537;51049;50663];
[112351;1;1;1;7;5;41;121;29;357;33;849;2441;2127;1337;21147;63869;80215;31211];
[112361;1;3;3;3;25;41;17;101;173;915;463;2391;1671;8789;13357;42127;17599;61087];
[112364;1;1;3;9;29;23;47;211;435;223;1421;2463;4543;8569;30209;46621;14367;13263];
[112372;1;3;7;7;5;9;75;209;299;81;1705;2335;6703;6309;5859;57889;43219;7667];
[112382;1;3;3;3;19;31;107;87;413;111;215;2711;7053;5223;25241;26675;16067;122719];
[112389;1;1;1;15;21;3;15;13;281;63;725;2025;4813;14177;18577;875;118623;192005];
[112408;1;3;5;9;17;21;85;173;59;153;763;3899;1985;2071;10439;44911;60915;122419];
[112417;1;3;7;13;11;63;59;95;53;927;555;1897;5195;13469;16973;3463;125173;256021];
[112423;1;1;3;7;9;63;33;193;61;445;1247;1379;4701;5311;30709;16795;69871;161113];
[112476;1;3;1;3;21;25;125;111;109;75;455;861;6483;4501;19095;45601;78415;30995];
[112480;1;1;3;5;1;25;15;25;223;961;537;1453;4951;5085;19801;9863;108819;7319];
[112483;1;3;1;5;29;21;79;113;177;691;219;3159;3493;25;30655;46257;23707;243377];
[112513;1;1;3;3;27;21;11;95;43;161;2029;4091;6695;7179;9955;45195;32017;128605];
[112538;1;1;7;5;19;37;47;83;169;143;773;2127;347;1887;2861;8155;21437;175641];
[112543;1;3;1;1;27;63;119;57;77;931;629;1807;4469;2315;3767;19207;114581;125135];
[112574;1;1;5;11;13;51;51;239;333;369;1035;3017;103;1809;14579;34425;123915;258397];
[112599;1;1;1;3;3;19;63;237;141;929;943;2597;3983;1043;24269;12325;39013;216689];
[112605;1;1;3;7;9;61;73;31;287;303;1415;3453;2667;8625;14347;51953;9181;251937];
[112667;1;1;7;1;15;41;1;197;87;311;1147;3799;2585;14027;491;54203;124861;227637];
[112688;1;3;7;3;15;35;97;89;65;493;1897;3345;3807;5911;12461;21393;116975;212801];
[112735;1;1;7;11;29;47;61;171;399;929;93;2815;4933;9209;15053;21911;117217;52539];
[112746;1;3;1;1;19;25;11;41;73;317;215;923;5153;8025;18703;11513;107981;2027];
[112810;1;1;5;7;27;33;47;99;171;259;2017;2055;909;4185;26689;23155;109857;213957];
[112817;1;3;7;3;31;17;39;203;255;345;1461;1561;4349;6451;14763;32993;74475;140557];
[112827;1;1;5;3;21;57;75;201;371;529;1471;243;3751;581;18405;40933;106311;745];
[112835;1;1;3;13;7;53;125;15;55;267;1865;3297;4331;2913;21675;58911;28419;105585];
[112892;1;3;5;13;7;13;37;37;207;127;785;1129;8123;7655;16003;18907;48883;2001];
[112898;1;1;5;3;11;3;127;149;503;1019;887;3429;7775;7113;19571;34461;38889;66981];
[112915;1;3;7;7;1;55;87;217;465;485;411;2955;4899;1741;7051;42885;1837;68175];
[112918;1;1;7;1;7;39;25;1;185;523;273;2409;1867;3101;29823;4509;81621;11815];
[112937;1;1;1;11;13;11;89;237;355;347;91;1791;5745;4181;29207;39495;5275;199395];
[112940;1;1;7;3;17;37;109;169;191;295;1001;2631;1981;11821;8315;40675;1293;220247];
[112958;1;3;1;7;31;25;5;55;1;795;1663;3177;6821;2073;25789;23691;25015;75203];
[113013;1;3;5;9;19;9;97;129;351;735;1897;3555;1731;5413;32051;12869;111973;100157];
[113014;1;3;3;15;27;1;3;167;7;851;805;713;6389;1455;32371;7617;107157;131299];
[113027;1;3;1;13;31;29;91;123;387;939;223;3583;2889;5307;16561;6055;4437;123229];
[113048;1;3;5;11;27;17;5;145;369;449;1677;1039;3553;3057;11667;51879;20519;41573];
[113051;1;3;1;9;9;1;91;33;379;35;691;375;5937;15019;16177;53457;52015;232257];
[113053;1;1;3;11;23;17;75;217;377;571;1725;2719;3911;12277;27799;55573;21981;112529];
[113102;1;3;1;11;9;37;81;95;501;615;327;3751;7333;15407;7785;29113;116335;221853];
[113104;1;1;1;3;17;1;125;157;461;845;93;107;4429;2271;14445;32919;81175;244557];
[113114;1;3;3;1;27;23;33;15;29;361;409;981;7819;10259;21971;23317;66641;54591];
[113130;1;3;7;13;31;63;11;167;511;81;1165;3973;4275;3315;10227;34973;58505;2333];
[113159;1;3;1;9;3;49;111;101;41;775;449;1349;4411;8691;535;60137;3269;204895];
[113180;1;3;7;15;7;43;39;147;309;185;733;1473;5467;6183;17971;56805;111931;163515];
[113189;1;3;1;3;21;31;17;129;317;587;801;2517;2569;765;20869;16461;34425;101123];
[113211;1;3;1;7;13;63;117;31;25;741;365;687;6195;2093;14679;16861;123381;25263];
[113245;1;1;1;3;13;59;65;131;41;39;1659;1491;225;10277;12445;4161;92119;146705];
[113261;1;3;5;1;31;11;21;203;345;473;1643;1377;555;11675;15383;30855;41249;231059];
[113273;1;1;7;15;3;23;33;133;433;407;1217;3345;7455;11489;21463;41621;95755;86971];
[113292;1;1;1;3;13;47;45;181;489;89;427;1915;3993;10133;20437;31811;48421;150009];
[113314;1;3;1;9;9;25;89;195;503;755;59;1869;6645;13841;22973;17761;46759;68717];
[113319;1;3;1;1;19;21;119;123;481;289;1009;3769;3909;1123;17875;17383;71533;45455];
[113323;1;1;1;3;31;33;127;43;467;749;377;3025;511;13335;23987;63627;50211;197253];
[113326;1;1;5;13;29;7;101;43;299;769;1637;3731;1945;9933;22263;1523;127557;116867];
[113337;1;1;3;11;1;59;25;45;275;535;1349;3625;8125;727;1215;15487;86229;124817];
[113338;1;3;3;13;3;11;25;237;213;331;395;1775;1225;6859;16577;39105;118081;74727];
[113355;1;1;1;9;5;27;117;75;479;757;1299;2273;3221;5297;249;60327;48739;107023];
[113365;1;1;5;9;27;9;123;49;63;763;121;3955;2069;5999;25973;64661;6321;1179];
[113376;1;3;7;11;9;51;65;93;51;51;829;3239;7431;3489;7691;38777;28151;96635];
[113408;1;3;3;13;15;51;13;203;49;73;363;2173;7771;11527;27683;39333;2083;178623];
[113462;1;1;5;5;15;27;27;127;503;955;427;3061;6213;917;889;12601;72445;105383];
[113476;1;3;5;3;27;43;105;187;309;747;1843;723;539;8829;19171;46009;26129;173145];
[113503;1;3;7;7;9;51;121;139;107;453;1103;2957;633;1435;27275;53231;51393;16847];
[113550;1;3;7;5;25;31;71;191;169;69;1477;1413;7659;11737;12365;25067;21787;16225];
[113578;1;1;7;1;9;33;37;123;391;341;829;1543;7323;14695;16431;20009;95821;182791];
[113580;1;3;1;5;9;59;109;39;301;977;1963;177;8107;16193;5691;14157;71605;250839];
[113634;1;3;5;9;29;33;33;153;7;217;201;563;6577;9605;16671;63949;97937;234309];
[113653;1;3;7;3;25;11;81;89;275;801;477;1921;2279;1651;13333;9127;99693;83141];
[113677;1;3;7;5;23;51;23;51;447;689;387;1845;6033;2037;20139;33165;56111;243353];
[113713;1;3;5;7;5;7;105;121;439;471;721;85;1627;3735;29611;15537;36131;30225];
[113751;1;1;5;5;7;29;31;209;183;217;467;1287;6145;14737;16249;8857;101405;103355];
[113771;1;3;3;5;19;1;43;15;239;63;617;2189;3841;1223;12217;4121;88047;14069];
[113781;1;3;7;1;9;49;11;65;297;943;1739;3797;6169;2057;5031;2149;21439;141039];
[113797;1;1;1;7;15;59;35;203;347;529;1741;1003;6143;4979;15495;48447;2139;187025];
[113846;1;1;7;13;15;17;77;225;461;691;1067;1133;6555;511;25845;39835;11755;142743];
[113849;1;3;3;11;27;25;49;51;335;1;381;2703;7023;14739;19335;39625;82255;76277];
[113855;1;3;3;7;19;3;35;95;203;991;515;2245;6085;4129;9581;38309;114203;136021];
[113878;1;1;7;7;21;61;31;57;459;119;523;1293;3647;735;28849;15581;123943;210069];
[113884;1;1;7;3;9;55;103;23;401;109;23;4083;6179;12817;2787;43337;53647;241507];
[113926;1;1;5;7;9;51;37;133;97;933;1509;2229;1769;12901;15439;25687;128823;72451];
[113938;1;3;1;13;17;19;7;109;299;799;621;3393;3645;283;29889;63215;97805;45795];
[113956;1;3;1;15;21;7;65;237;221;433;1611;2591;3639;3231;6025;53465;88091;17657];
[113980;1;1;7;9;27;13;11;185;381;43;961;2743;2691;10531;3713;61757;124011;209323];
[113986;1;3;5;1;13;7;109;65;359;577;2001;3085;3519;8577;19299;40145;37159;82421];
[113991;1;1;3;11;7;5;21;215;391;317;879;1835;611;7189;3887;45383;41025;175701];
[114005;1;1;1;1;5;17;69;115;481;477;2017;583;8033;11349;16625;213;88033;31707];
[114022;1;1;7;15;19;55;121;35;1;71;1011;3247;4133;1681;29943;30149;96797;177707];
[114036;1;3;5;13;11;45;83;153;455;223;787;2025;5271;229;17549;5775;75311;134523];
[114046;1;3;5;7;21;43;3;253;395;651;1111;1685;539;6555;25761;39477;15823;261825];
[114050;1;3;7;15;27;35;43;191;269;247;883;887;1505;7433;6239;5421;49583;17765];
[114061;1;1;5;15;7;19;113;177;63;119;517;3987;971;12071;13107;28913;85675;204921];
[114067;1;3;7;15;31;47;21;129;31;505;661;855;6135;13063;27971;63801;27469;75373];
[114117;1;1;7;5;13;23;111;85;279;969;483;831;483;9065;10997;59031;5083;150939];
[114142;1;3;5;7;17;55;11;223;189;209;139;577;5443;913;19085;53113;8427;11251];
[114158;1;1;1;7;23;61;95;213;443;803;1545;3625;2195;2649;10913;14339;23001;16735];
[114165;1;3;3;3;13;45;15;225;419;445;527;635;2279;5097;25267;199;66187;156717];
[114200;1;1;1;7;23;17;113;245;99;159;919;2961;1731;6241;12749;8925;44153;243249];
[114219;1;3;1;3;29;57;43;245;389;233;135;45;3771;14061;10173;51939;128985;81605];
[114254;1;1;1;15;1;19;25;111;91;193;1185;3679;7155;7077;13743;35631;128975;196979];
[114265;1;3;3;13;31;57;25;53;149;331;643;915;1607;14429;29803;23459;72915;39253];
[114272;1;3;3;9;23;45;9;29;383;277;981;1647;5217;4449;26759;63849;98081;37565];
[114312;1;1;1;15;3;23;9;121;231;27;1961;2389;1689;7041;8069;37973;74601;15553];
[114318;1;1;5;15;15;29;11;177;355;47;1821;393;3383;10439;6357;41119;60323;206253];
[114348;1;1;1;1;21;29;87;149;157;979;1867;729;1949;4409;27495;6841;89033;214957];
[114377;1;1;3;3;9;7;115;129;141;157;881;109;5537;303;32549;1953;9903;82401];
[114383;1;1;5;15;9;19;93;53;319;913;1341;705;4639;16189;11375;39155;81393;115843];
[114386;1;1;5;7;31;21;3;47;437;799;359;3291;3917;12983;19283;23769;34033;226041];
[114431;1;3;7;7;27;13;65;31;181;511;1373;3871;1537;6015;12103;42187;121043;95715];
[114448;1;1;5;11;1;55;91;11;105;137;1787;81;5163;5793;17403;59433;113439;65751];
[114479;1;1;3;13;21;57;87;157;379;5;285;3217;4557;3359;28953;63397;110537;230571];
[114487;1;3;7;7;7;27;25;109;125;337;719;561;5903;12913;6987;17157;50655;195109];
[114513;1;3;3;15;3;11;97;93;441;19;1435;515;6129;5177;28075;53495;107817;78399];
[114542;1;3;1;9;13;7;89;171;165;479;223;4001;691;4033;13577;33363;63447;46609];
[114572;1;3;7;1;15;47;103;45;209;639;1465;2795;6025;7981;29491;47743;12861;222445];
[114584;1;3;3;3;1;25;121;91;253;969;1259;1409;1329;15995;17733;24081;101747;120619];
[114600;1;3;7;11;11;5;7;241;469;411;1733;1385;7005;10977;23369;10675;90341;93077];
[114605;1;3;3;13;17;35;107;189;437;801;1761;3133;3847;14079;22465;45957;38449;54273];
[114623;1;1;7;9;9;47;55;107;491;281;777;2187;6179;6607;2151;9093;42873;104677];
[114628;1;1;5;3;25;3;37;55;339;619;1227;3859;5593;9639;31199;48155;80779;6497];
[114640;1;1;7;1;21;49;105;45;119;635;163;3821;3689;11395;19265;14289;89259;167433];
[114650;1;3;3;15;29;23;11;255;425;443;1659;3965;4791;10223;11113;48751;7987;166605];
[114668;1;1;7;3;7;1;113;153;233;803;539;297;4847;11203;29393;54319;94373;173471];
[114671;1;3;3;5;27;57;23;147;423;617;103;3369;4825;13613;23635;61977;5331;115243];
[114674;1;3;3;9;11;47;41;27;345;657;1873;365;1685;11181;31977;60489;98741;215357];
[114700;1;3;1;11;19;33;39;223;151;921;309;3413;6735;11971;25583;6927;54821;125203];
[114731;1;1;5;1;27;31;61;247;207;895;1453;3613;7097;6537;29407;9903;39937;98285];
[114748;1;3;1;5;7;11;119;7;323;27;1069;2033;7387;3381;19007;49039;39453;115411];
[114759;1;1;7;3;9;15;51;139;353;857;1829;3955;7669;3961;22805;39879;26677;66865];
[114766;1;3;5;7;1;11;59;95;181;645;829;3119;3607;5973;12381;41577;79443;226945];
[114768;1;3;3;5;3;13;91;119;103;889;703;3005;541;7529;12613;14267;70445;217543];
[114784;1;1;5;7;17;41;5;225;85;759;1071;2055;1655;14811;25635;50803;58545;105687];
[114808;1;3;5;13;3;7;77;209;139;717;985;1085;831;11011;27313;46423;29435;207359];
[114813;1;3;1;7;27;45;39;75;311;937;1593;1357;4815;1997;1045;48681;49301;155607];
[114829;1;3;5;11;21;9;111;39;447;241;1613;1799;4817;1861;1263;63641;92081;252051];
[114830;1;1;1;13;31;13;39;29;349;25;1227;2457;3831;7965;16903;25825;62381;101765];
[114842;1;1;3;7;15;17;5;29;83;607;931;261;1087;16247;10129;7813;5445;167723];
[114875;1;3;5;9;15;31;69;191;139;467;1681;1951;7813;4295;18191;11411;15601;13025];
[114898;1;1;1;11;29;53;97;205;281;917;1009;913;1003;16085;30339;55753;53099;30697];
[114903;1;1;3;15;25;35;7;227;63;251;845;843;7117;6021;26917;43611;108643;215471];
[114913;1;1;3;11;19;29;75;5;131;37;1185;2387;8161;1621;19887;20525;33067;30869];
[114928;1;1;3;3;7;37;75;159;313;17;479;2477;7779;309;26095;35693;92561;143151];
[114937;1;1;5;9;5;29;65;223;331;1013;37;1813;1379;9277;14681;61687;24763;124669];
[114958;1;3;1;1;17;47;7;219;11;13;1517;2583;7483;5399;6883;51387;17901;108659];
[114963;1;3;7;11;9;63;81;91;411;535;255;3683;5285;1787;27205;43651;15647;230651];
[115000;1;3;1;11;7;47;35;255;341;379;421;753;7821;13271;13021;463;48457;132521];
[115018;1;1;5;7;21;23;53;229;393;509;1641;2245;6941;10447;3231;5451;18883;47401];
[115023;1;3;1;7;13;61;71;49;147;625;299;3843;4851;3483;27005;23871;18855;124893];
[115028;1;3;1;7;31;13;127;177;259;179;531;1775;5481;13157;23821;31773;93941;237697];
[115042;1;1;7;1;23;21;111;219;401;455;1603;2077;1537;2063;17821;52087;20707;29535];
[115084;1;1;3;11;17;17;13;79;49;353;1691;361;2805;7121;27013;50631;108235;70513];
[115096;1;1;5;3;15;25;103;73;377;253;1303;501;555;15789;16647;9019;60581;157337];
[115105;1;3;5;9;23;45;3;251;25;559;429;1091;5657;15387;5113;64533;131049;127587];
[115117;1;1;3;15;1;53;71;141;413;849;737;3045;7119;8049;18295;31447;70735;117457];
[115149;1;1;1;11;17;11;69;155;211;249;1869;1575;6859;7045;7015;20135;84157;232621];
[115155;1;3;7;5;19;55;15;163;457;371;1665;1935;601;3629;21975;1191;45133;111649];
[115198;1;3;7;11;23;33;5;253;355;379;933;1781;3989;6191;19081;7651;74671;258799];
[115221;1;1;3;3;23;3;63;123;273;861;369;2409;1505;9059;10727;189;122911;44037];
[115222;1;1;7;13;13;23;19;87;191;397;2027;1689;1143;10919;27073;15013;118429;119165];
[115225;1;1;5;9;15;13;29;81;409;955;1827;1341;3473;16005;29041;57527;7329;167093];
[115276;1;1;5;3;11;31;47;13;171;995;961;3885;3259;2745;12405;49281;2901;207591];
[115294;1;3;5;13;31;3;1;215;465;279;1697;2449;3829;2053;9877;52911;126077;210515];
[115297;1;1;3;7;11;27;55;115;249;353;407;2567;8105;7747;18111;3383;101875;2185];
[115321;1;1;3;9;25;5;35;137;405;667;1671;2965;5975;4999;18421;43623;64621;129797];
[115348;1;3;7;13;3;17;33;191;463;787;1795;3037;1679;63;12389;3983;22385;84235];
[115364;1;1;5;9;11;25;85;215;355;553;317;1637;3461;15943;2619;14545;125507;18659];
[115376;1;1;7;5;3;41;105;179;125;557;1345;3631;481;10621;11213;40223;46581;113137];
[115385;1;3;3;15;1;63;95;213;89;21;1249;3063;413;4307;26723;10225;115143;144817];
[115386;1;3;5;15;9;43;41;117;419;143;1651;377;4775;8761;23793;8719;76499;208119];
[115400;1;3;3;1;21;29;47;117;23;333;1153;1067;5859;9375;29997;58991;55895;204933];
[115414;1;1;3;11;11;21;115;85;223;281;701;1331;1341;1149;5993;10885;77353;113553];
[115465;1;1;5;1;25;1;1;153;449;231;593;3061;4157;6661;21735;11361;57751;129569];
[115485;1;1;3;7;27;63;81;251;125;197;1525;1637;4643;4743;17127;51217;95781;973];
[115492;1;1;3;7;11;51;13;139;83;341;543;3061;7777;6705;9609;28933;24669;225275];
[115501;1;3;1;9;25;39;99;139;5;725;1759;1577;1751;3197;3169;39051;1743;108813];
[115519;1;1;7;5;31;15;115;229;499;291;501;3119;2293;14137;625;16379;111057;101643];
[115527;1;3;7;15;31;1;51;73;455;51;1983;3687;6049;3495;26247;6567;28479;158909];
[115531;1;3;5;5;9;11;77;181;165;773;1611;3945;6787;3827;28597;53269;34003;237291];
[115567;1;1;5;3;31;57;15;9;163;363;1021;2193;8175;3851;26059;63915;114293;163637];
[115572;1;1;3;7;27;49;35;121;469;833;879;1601;6991;13271;8085;45343;5189;109413];
[115631;1;3;1;15;7;11;111;153;129;769;565;2693;333;7343;28535;56937;85641;19871];
[115648;1;1;5;13;7;49;121;223;55;33;19;2291;1847;10173;23337;23431;18181;155663];
[115660;1;3;1;11;25;9;3;255;425;861;1025;3719;6995;14687;31083;60609;115375;17813];
[115672;1;1;5;13;1;55;109;239;13;939;1077;669;1643;10949;25399;55055;125829;253077];
[115681;1;1;5;3;15;51;13;133;257;387;2017;2223;1479;9377;12867;9833;32323;6255];
[115688;1;3;1;9;1;53;121;163;349;491;1867;3403;6859;459;1483;23893;66851;150843];
[115694;1;1;1;1;1;33;51;33;177;633;449;2705;663;3701;8331;43895;87223;48587];
[115699;1;3;5;7;23;7;99;43;217;31;749;2831;1557;3295;6797;45229;46831;62183];
[115719;1;1;7;7;1;45;35;51;415;693;479;1017;6703;241;30887;8953;26901;2951];
[115726;1;3;3;7;29;3;25;217;67;769;653;3983;5513;15481;21399;17525;81747;109843];
[115733;1;3;5;5;29;17;97;187;157;189;1531;1123;4291;14831;15493;62753;53563;153679];
[115796;1;3;7;13;15;63;47;5;351;275;1177;3947;6755;1319;17053;14267;98215;228795];
[115879;1;3;7;5;19;45;43;223;213;903;539;267;83;6951;2979;56929;58405;198373];
[115880;1;1;5;11;21;37;109;103;29;49;17;3987;5679;2559;17391;46157;38743;82245];
[115888;1;1;3;7;7;35;57;187;113;361;721;1821;6473;10233;22549;37725;8445;220669];
[115908;1;3;3;9;21;41;73;29;163;701;1277;3869;1529;4889;10091;65507;53829;191347];
[115925;1;1;5;15;5;21;39;39;341;271;1543;3161;3935;8319;24921;19575;95009;256221];
[115942;1;1;1;3;11;33;63;189;21;773;1261;3947;183;6769;31337;22179;57255;8323];
[115978;1;1;3;15;29;59;103;251;107;499;915;387;3127;5597;3345;15657;979;91685];
[115986;1;3;3;11;13;27;9;137;177;75;567;1511;7355;3087;15309;51733;87329;217125];
[116014;1;1;1;15;9;43;113;177;507;379;765;75;6895;7523;24611;7315;49653;59263];
[116019;1;3;1;5;29;23;59;215;267;161;1957;341;4081;9635;3345;12323;128751;144577];
[116031;1;3;3;13;17;55;59;73;65;697;1209;3345;5629;4545;23043;37649;55015;10263];
[116048;1;1;7;1;21;3;7;19;445;417;1677;799;1241;15463;19815;52845;81309;256713];
[116069;1;1;3;13;13;57;17;199;3;377;1799;2713;3937;12511;7439;33605;56697;168195];
[116091;1;3;1;7;21;53;115;97;389;83;961;813;1499;3411;22377;33323;118405;115947];
[116103;1;3;7;11;23;43;85;249;151;893;833;901;7731;13467;14721;38613;104033;136097];
[116107;1;3;1;11;23;23;119;129;175;159;1031;2379;2753;6755;10979;18225;52375;257003];
[116145;1;3;1;13;1;9;61;255;433;621;1469;705;5841;7421;23873;30487;55823;119705];
[116152;1;3;1;15;19;31;29;163;87;793;885;2495;4609;2757;5333;52937;79187;228777];
[116247;1;1;1;3;17;43;69;241;143;173;327;2747;5617;16347;16155;47775;25917;163663];
[116289;1;1;1;1;19;19;15;27;25;139;691;4019;3055;10301;11281;10957;59117;178149];
[116316;1;1;1;3;15;15;37;89;103;7;527;2823;7205;6831;25179;22249;103323;31251];
[116344;1;1;3;3;7;49;7;241;37;11;577;1987;1935;14787;16411;36305;65185;221253];
[116354;1;1;1;5;31;51;123;169;441;13;721;2359;5687;2641;16339;8441;55967;98775];
[116368;1;1;7;5;21;23;91;229;23;105;339;2371;7803;14913;12651;40573;117399;134865];
[116377;1;3;1;15;19;27;127;77;469;343;451;2251;6705;7765;8623;10367;100379;140899];
[116383;1;3;1;5;1;11;93;231;33;133;1545;1015;7577;8871;29975;12141;130833;103123];
[116387;1;3;3;5;7;25;95;93;293;543;1785;2097;6045;4225;607;443;72055;32269];
[116408;1;1;1;1;5;55;47;105;189;359;1589;765;2303;11963;25565;40669;98977;242089];
[116428;1;1;1;15;13;45;121;235;125;181;1891;3265;2097;3207;31647;13407;22515;15155];
[116445;1;1;5;15;13;11;81;233;307;505;221;813;6483;741;9819;19405;74235;144761];
[116476;1;3;5;7;9;25;31;209;337;473;1831;2711;5551;13531;28747;1875;6401;159995];
[116482;1;1;7;7;29;3;127;207;387;849;1449;2741;2105;885;18115;5433;122119;16969];
[116488;1;3;7;9;25;17;43;209;41;927;409;1567;1609;12487;16305;41365;10991;172127];
[116493;1;1;3;7;27;29;63;127;81;283;1459;143;5993;14027;8055;28065;128389;255307];
[116502;1;3;7;11;13;41;63;223;215;901;1853;2881;5149;7439;4519;33279;127765;139431];
[116518;1;3;7;7;15;61;61;173;221;711;191;3863;2695;9663;6277;8791;128019;256755];
[116524;1;3;1;9;29;45;83;43;297;605;1887;2421;2307;5199;17275;39225;127215;253687];
[116527;1;1;5;3;21;23;121;125;497;945;1367;2757;3481;8607;32447;62373;32171;226621];
[116549;1;3;1;5;7;1;71;255;465;951;129;1989;6053;3737;6511;54519;16947;124491];
[116561;1;3;5;1;9;21;127;49;85;615;1897;1715;7923;10309;16919;24131;18015;140195];
[116562;1;1;1;1;5;27;3;205;29;319;485;3941;7829;789;4207;39939;67761;152459];
[116568;1;3;7;11;9;41;1;129;511;831;1007;2011;6211;9179;20877;62121;21879;23661];
[116577;1;1;7;1;19;53;75;123;181;735;925;1065;3317;3201;27473;19379;78223;45725];
[116590;1;1;5;9;9;61;3;193;441;815;583;3235;247;14091;19877;33505;3477;20111];
[116602;1;1;5;13;29;53;55;165;359;889;1833;1543;7913;307;22853;37839;15569;140127];
[116607;1;1;1;15;21;53;63;195;299;1019;1371;1311;5401;8015;30335;56281;61011;59279];
[116611;1;1;3;13;3;57;45;239;445;419;581;3971;4621;9327;27255;53069;126415;250313];
[116626;1;3;1;9;5;63;21;25;447;961;1857;3123;3029;9743;26069;38251;58475;108737];
[116637;1;3;1;15;13;59;5;21;171;107;1631;2407;6695;8079;2805;50995;53173;104757];
[116647;1;3;7;7;1;55;103;67;369;533;515;2363;5147;11633;20435;24591;68155;140029];
[116665;1;3;7;13;19;51;13;149;159;915;1029;2825;5259;5139;31325;42825;119923;227811];
[116674;1;3;3;3;23;17;121;25;403;333;491;2869;881;12997;5101;48351;90831;143009];
[116700;1;1;3;15;23;63;93;43;107;393;419;3509;1543;10295;11019;8389;73753;42681];
[116714;1;1;7;1;29;49;41;189;303;955;1241;1623;2269;3413;6261;2155;90945;95117];
[116719;1;1;3;15;31;13;103;241;189;283;1303;1693;1587;16313;205;43421;121799;200151];
[116744;1;3;5;1;29;27;105;83;345;411;1197;3489;5891;1137;7311;681;127991;69533];
[116764;1;3;5;15;31;11;105;221;57;39;145;3233;1431;16271;21225;47989;72583;191327];
[116774;1;3;7;9;25;47;109;61;257;949;981;1383;8003;4661;19555;20191;114641;84817];
[116778;1;1;5;9;17;9;19;209;73;573;1039;2741;1495;1615;6299;20507;84729;166977];
[116798;1;3;5;13;27;51;39;203;437;725;1479;3071;621;15563;28473;58403;25943;116683];
[116803;1;1;3;9;5;29;63;61;329;305;523;2243;6689;11773;19319;57783;24265;218153];
[116806;1;3;7;5;17;27;115;9;243;613;679;1915;7265;2989;13663;15115;50779;235761];
[116827;1;1;5;5;13;35;111;151;255;569;1209;3277;4503;3797;22601;19523;126339;141289];
[116839;1;1;3;9;15;51;85;125;233;1011;231;2949;1091;8605;14855;62401;14143;212557];
[116863;1;3;5;11;29;53;83;31;201;219;1083;967;6913;10325;1971;55841;7733;208883];
[116873;1;3;3;1;23;33;51;103;265;285;1363;2813;3327;7921;13537;31483;43405;189641];
[116882;1;1;7;15;27;3;5;87;117;437;1251;189;3271;15579;25025;23203;39421;133581];
[116887;1;1;5;1;9;3;91;45;71;557;2019;2355;5539;2843;13025;61017;3475;179891];
[116915;1;1;7;5;17;11;127;241;9;971;1699;2719;1947;109;19817;13949;120247;60775];
[116939;1;1;5;9;9;39;117;221;197;767;1691;4075;3665;1271;16119;64129;2681;105325];
[116944;1;3;3;11;31;51;5;23;419;715;1985;4095;7255;10491;25575;6177;35917;178345];
[116953;1;3;5;7;15;23;99;203;461;509;1501;1965;1105;1341;21713;21901;129905;67937];
[116965;1;3;3;15;25;5;55;167;477;125;163;2379;2433;12975;26259;55825;19913;202873];
[117002;1;3;3;7;15;15;67;227;413;905;1609;2083;4011;10477;22809;61873;96423;119253];
[117007;1;3;1;11;13;17;37;147;355;445;619;3181;5939;6953;15859;37979;24723;133037];
[117015;1;1;5;15;5;25;89;3;279;569;343;2453;5739;2901;6709;43957;75791;20791];
[117032;1;1;3;5;13;39;53;203;75;945;635;349;2339;2549;23827;7903;128005;14949];
[117035;1;1;7;3;7;59;59;77;143;99;1313;3957;3807;15731;20919;60829;105967;226767];
[117052;1;1;3;7;17;49;27;245;129;583;1055;741;5607;689;20075;54837;113257;222677];
[117087;1;1;7;13;17;5;19;141;205;749;1769;2981;5787;4511;135;19475;113735;116859];
[117139;1;3;7;1;9;33;111;139;77;117;363;1171;2587;1539;30791;10697;6879;104827];
[117157;1;3;3;5;27;47;49;215;65;435;1601;231;2047;10405;28409;17013;103909;232051];
[117193;1;3;3;3;13;19;3;159;293;675;247;2829;6703;6085;1935;18209;15709;186669];
[117211;1;3;3;5;21;55;17;237;121;603;953;947;6973;15979;11029;12381;12807;131603];
[117214;1;3;5;3;3;41;121;203;283;349;1841;115;6567;2131;883;50515;78381;168189];
[117220;1;3;7;15;5;55;85;13;77;443;1711;1043;1265;3701;5121;41435;40637;69125];
[117238;1;1;5;15;15;33;67;235;3;95;1685;731;2187;11857;7197;62113;12565;127455];
[117248;1;3;7;7;11;45;125;231;263;611;221;195;6347;14029;7823;52295;78879;211441];
[117275;1;3;7;15;9;63;75;189;187;449;27;3647;4705;13037;3773;36441;35445;181793];
[117293;1;1;5;3;31;19;123;39;297;1017;1191;2227;6085;5117;16569;64743;29329;157279];
[117301;1;1;5;5;15;47;111;61;435;657;141;3445;6921;7759;30141;37631;85969;227563];
[117319;1;3;1;13;27;39;15;167;151;185;1513;211;951;12705;25703;29289;120993;156741];
[117338;1;3;7;7;7;39;19;221;351;951;1231;1915;3043;189;18977;50149;56583;122147];
[117347;1;1;5;15;29;37;77;207;291;851;131;1041;1657;4393;5023;12745;32253;204431];
[117361;1;1;7;15;11;59;85;255;67;23;1321;2153;7043;417;15719;59937;37619;109331];
[117380;1;3;7;15;25;37;43;15;385;735;1741;3655;4215;1097;19519;44313;99851;204717];
[117389;1;1;3;7;15;17;17;105;399;49;105;159;465;11991;29797;23907;129609;179013];
[117398;1;1;7;13;9;17;87;51;391;695;545;3061;4499;2059;10095;13847;68519;60611];
[117435;1;3;3;1;31;7;11;233;231;189;1599;1589;401;8759;17273;43613;48709;253521];
[117458;1;1;1;11;5;9;27;77;491;951;579;1635;3241;14497;27149;45001;56769;160731];
[117476;1;3;7;15;29;11;125;101;19;971;107;1525;3939;7633;16355;24727;19475;157571];
[117498;1;1;1;9;25;7;35;187;321;483;1919;1911;7869;12903;26977;49419;24973;214731];
[117500;1;1;5;3;23;1;11;143;315;1015;1367;1555;1041;6655;10481;49275;49575;101061];
[117529;1;3;5;15;15;59;13;117;217;975;1821;3829;1545;921;20875;43305;18793;158651];
[117554;1;3;3;11;23;23;91;7;29;613;1093;3881;3301;3751;16137;48277;119813;177341];
[117556;1;3;3;15;7;37;115;19;147;585;1877;2395;3343;9567;16199;13969;89731;124835];
[117565;1;1;5;7;29;3;59;141;375;527;1219;409;7155;2823;32497;23103;73187;53089];
[117580;1;1;5;3;13;27;111;63;189;813;643;19;3461;13891;26651;52395;74729;148397];
[117585;1;3;5;1;27;61;97;227;123;829;1559;2523;7737;6047;213;23613;61571;7093];
[117592;1;1;1;11;17;1;73;203;391;937;321;3431;7163;3547;29467;65271;69775;226405];
[117597;1;1;5;15;25;7;75;199;511;731;1547;2127;1609;5623;26771;29935;76671;178683];
[117616;1;3;5;15;25;49;99;23;281;81;507;1499;5235;9945;14099;5993;319;178581];
[117637;1;3;7;9;5;13;105;7;135;827;927;3463;839;7047;19863;63859;13951;221795];
[117644;1;1;1;13;7;21;59;9;467;299;1035;1395;7413;7313;24769;44043;50679;72867];
[117659;1;1;7;1;31;33;95;155;429;413;493;2025;2069;551;507;13515;3507;93873];
[117703;1;1;3;5;3;33;109;1;299;727;495;2981;3795;11467;27173;4171;6859;129961];
[117704;1;1;7;9;23;41;113;103;161;303;1565;2637;7113;11635;13707;3559;21007;250107];
[117727;1;1;5;13;1;49;11;87;31;77;1847;1137;3031;1943;28755;32197;96043;152447];
[117738;1;1;3;7;3;3;123;65;175;809;681;2135;5279;7119;4573;19287;90235;183391];
[117770;1;3;1;13;7;5;25;151;437;155;1841;219;5641;12097;6153;11;60315;169293];
[117796;1;1;7;5;21;29;23;83;35;651;1507;635;3867;12133;25523;55341;105741;240349];
[117799;1;1;1;15;9;29;27;151;463;747;547;577;1263;15235;6695;60849;72231;175671];
[117820;1;3;5;11;11;43;81;37;505;509;1325;3295;839;5855;19795;1403;15711;219481];
[117832;1;3;3;15;25;61;121;37;201;133;537;1345;4213;13023;18795;8949;84431;105521];
[117840;1;3;7;11;13;51;87;245;357;7;699;2003;5963;1399;69;19083;114585;232313];
[117843;1;1;1;13;9;29;65;123;37;885;227;2795;1037;10905;21217;4081;77643;254245];
[117865;1;3;1;3;25;23;71;189;253;785;1337;1275;3285;1067;8607;3883;119099;116637];
[117868;1;1;1;15;19;43;17;89;257;175;1943;207;597;9279;405;33209;65221;39557];
[117874;1;1;7;5;7;47;127;11;197;871;23;1951;6829;7831;5223;56287;115649;114283];
[117886;1;3;1;3;1;35;81;189;19;117;1683;469;8117;5449;22871;5505;125111;128717];
[117962;1;3;7;5;7;31;105;57;387;691;1293;3103;2329;16247;18357;55453;112633;225641];
[117967;1;3;1;3;13;3;65;25;47;413;521;3507;1793;14431;22341;39813;46399;204501];
[117995;1;3;1;1;31;37;21;45;261;665;1243;1937;5001;3789;26473;20153;107131;75523];
[118000;1;3;5;15;27;61;109;139;19;583;353;445;53;67;20753;57827;116527;55109];
[118017;1;1;3;3;1;37;113;21;305;967;1703;2095;1059;2843;22381;24871;24765;52425];
[118037;1;3;7;11;27;59;111;111;283;79;1227;3631;4169;5671;7769;56553;75503;206259];
[118038;1;1;5;11;11;1;127;13;17;255;1383;2879;6785;289;7061;53067;11539;131405];
[118051;1;1;5;15;29;27;67;15;247;689;579;3237;5279;13847;20305;60237;115841;144855];
[118057;1;1;5;1;9;25;75;11;83;1015;281;1617;7449;10673;7033;38839;113703;233101];
[118072;1;3;3;3;23;41;81;109;199;969;935;1793;6921;4013;9625;48149;54395;1193];
[118080;1;3;5;7;19;63;25;201;63;799;765;533;1417;3199;7773;44247;112207;11783];
[118098;1;3;1;11;7;25;87;159;491;749;1157;667;2951;12019;22259;36933;124159;176041];
[118107;1;1;5;15;21;19;113;175;129;385;2025;2685;1925;8547;4835;15953;128023;236341];
[118109;1;1;1;9;13;47;25;81;389;249;1857;1061;4439;3717;16299;23247;95275;222701];
[118114;1;3;3;1;3;61;61;117;159;689;43;113;4203;7699;27607;37195;63415;90481];
[118123;1;3;1;5;11;49;73;13;307;655;645;2765;6079;12687;22417;44713;5247;40265];
[118150;1;1;7;13;5;55;57;237;317;101;481;2515;707;6385;9421;50557;92395;193737];
[118159;1;3;5;1;27;35;65;107;63;57;1699;4077;4279;8547;15137;11533;117641;64925];
[118164;1;1;5;1;13;7;7;141;305;191;2033;2677;6025;12927;4057;12047;60253;90803];
[118173;1;1;7;3;1;9;63;233;185;97;913;187;4321;8951;27669;27035;30029;218725];
[118201;1;1;7;1;11;59;41;195;335;551;491;3079;7777;4003;24543;17165;103261;167505];
[118212;1;1;3;3;9;59;37;185;289;845;1083;63;7439;4677;29245;40813;16295;45499];
[118246;1;3;5;1;1;37;89;5;277;493;155;1641;5395;11389;26247;2833;103803;74447];
[118257;1;1;3;1;29;55;83;211;377;583;1075;2679;7157;11719;1653;5977;52263;45531];
[118303;1;1;5;15;1;31;89;7;239;821;887;1319;225;14555;5443;44717;99803;241577];
[118310;1;3;5;11;7;23;81;161;67;1011;177;2837;7767;14385;29415;9377;7407;128403];
[118313;1;1;7;11;3;13;13;237;199;601;481;3809;6591;8497;25361;22547;28317;22961];
[118324;1;3;1;1;31;29;105;161;483;391;321;1087;4149;8803;22291;24611;114447;33645];
[118334;1;3;1;11;1;47;41;45;287;503;169;2265;1835;6609;25245;7069;61137;160653];
[118336;1;1;7;13;11;39;29;39;489;205;741;2871;377;10679;11689;50947;85309;95697];
[118339;1;3;7;7;23;19;103;15;79;425;369;2009;4417;11031;2113;36969;73241;120903];
[118353;1;3;1;7;27;9;43;33;123;895;223;1045;2701;3339;12099;24449;52973;175671];
[118354;1;3;5;5;3;1;13;117;429;167;1361;2299;7565;1153;9259;29209;25747;71005];
[118390;1;3;1;15;7;7;13;209;73;523;1549;2545;5583;10209;27205;41243;14217;208993];
[118396;1;3;5;5;3;29;99;255;479;297;1319;2171;7321;14425;15869;44449;10917;171165];
[118436;1;3;3;11;13;49;29;95;79;987;161;859;6503;8839;14131;30249;16183;40257];
[118453;1;3;3;11;27;7;27;33;255;847;789;3897;2599;16107;22379;1853;102713;197547];
[118466;1;1;3;9;29;11;107;227;35;183;639;1585;313;1451;19789;13855;94277;85569];
[118492;1;3;7;7;25;33;101;49;137;457;2027;3317;1961;6097;739;12875;69503;95453];
[118506;1;3;3;11;29;13;127;3;31;319;1341;927;5067;13891;31265;41381;49341;160343];
[118525;1;1;3;15;31;21;93;155;471;707;1395;2995;867;10353;8137;44267;24823;6113];
[118557;1;3;1;7;7;33;83;79;349;687;1045;1183;4441;15199;1953;36395;84691;134939];
[118561;1;1;3;15;13;21;41;105;189;439;1171;4005;7641;1597;24317;58749;35539;220647];
[118586;1;1;3;15;13;39;49;5;461;613;1633;1951;7959;5733;10061;18829;49505;90033];
[118606;1;3;5;5;29;25;19;227;379;525;687;2629;7729;4791;5911;14481;49063;216669];
[118627;1;3;7;7;7;63;93;227;79;165;1971;1695;4485;6009;8769;12861;83653;27667];
[118641;1;1;5;5;25;11;23;89;363;491;459;4063;3787;9375;28011;44757;56441;116609];
[118654;1;3;5;9;7;53;43;149;435;35;135;1759;3197;7749;12731;28295;25901;125847];
[118687;1;1;3;5;15;15;1;215;307;711;1971;2795;677;11921;10303;37997;6653;51295];
[118688;1;1;5;15;1;59;75;195;51;215;1303;3023;8023;10951;13015;23513;37029;23581];
[118735;1;1;1;3;27;3;77;165;97;499;937;1129;6649;11305;27763;32849;78251;210407];
[118737;1;3;3;3;9;21;19;197;339;53;1875;1057;3485;14645;13417;39307;81437;45857];
[118750;1;1;1;5;19;5;95;205;399;699;819;1927;7913;8109;1223;28595;397;81051];
[118773;1;3;7;13;23;11;37;167;189;813;1199;3545;655;13239;10469;33895;119025;185361];
[118778;1;1;5;11;9;13;41;37;443;269;1199;1347;7081;11273;14389;64083;117901;51903];
[118786;1;1;3;13;5;17;117;151;155;637;731;1839;855;9749;19529;18101;20341;21941];
[118809;1;1;1;11;15;17;35;9;91;907;667;853;1455;10097;31277;749;47089;219517];
[118833;1;3;7;1;27;31;9;145;309;811;5;2645;7851;1953;21427;18805;108755;77215];
[118853;1;1;7;3;21;7;25;233;145;1015;43;2205;4735;13257;24001;50469;42567;253745];
[118854;1;3;1;15;3;53;51;45;397;379;641;895;7569;15783;23923;6147;121395;261853];
[118863;1;1;1;1;23;47;35;125;289;65;1875;2309;519;5435;5271;25319;14557;19389];
[118881;1;3;5;7;27;43;15;61;357;791;1781;3671;3911;1325;5607;44107;67873;119849];
[118896;1;3;1;5;25;37;105;51;491;407;475;1763;1425;14883;31435;48979;120667;131089];
[118917;1;3;5;13;1;51;109;161;215;871;185;2389;7977;6705;14045;45569;44557;114795];
[118921;1;3;7;11;17;21;111;183;343;593;447;3995;759;3709;32655;30141;127225;120899];
[118939;1;1;5;3;17;3;69;25;113;897;1933;2717;2003;5847;2541;62415;50975;97903];
[118948;1;1;1;1;9;35;107;81;257;57;1719;4049;1237;10659;4689;20887;90791;251911];
[118960;1;1;7;11;1;49;83;213;169;169;825;2983;5833;2413;32165;47459;129021;156217];
[118970;1;1;5;13;15;39;61;93;407;553;839;4035;6609;6327;945;49625;127867;240161];
[118983;1;1;1;15;23;47;21;235;81;431;1819;1141;7973;4623;4539;23201;83111;230857];
[119025;1;3;3;15;9;15;15;173;29;803;1453;2621;8095;6639;6607;21471;44785;122271];
[119026;1;3;3;7;21;5;127;203;43;581;1925;165;4615;9141;18563;54413;71559;172791];
[119064;1;3;3;3;27;31;55;3;381;971;1087;2659;139;10935;9189;3445;15071;218873];
[119069;1;3;1;3;1;57;47;71;85;335;207;225;2931;14721;21431;17199;745;177403];
[119079;1;3;1;7;7;17;21;57;345;29;1147;1179;7371;14725;27445;62061;16483;112489];
[119085;1;3;7;15;23;11;91;1;1;117;1665;3899;5683;14497;25633;6233;104029;22155];
[119115;1;3;5;9;1;27;15;187;37;329;585;729;5651;15715;4339;1899;90611;195643];
[119165;1;1;3;11;1;45;95;103;13;83;319;2295;6333;13469;19237;55985;129725;141699];
[119166;1;1;5;11;7;41;97;159;511;617;1545;3023;7919;8437;8345;16701;69053;105047];
[119193;1;3;3;11;29;35;23;95;277;931;857;3887;4597;10841;12947;18009;61499;242827];
[119194;1;1;3;3;7;63;35;161;125;637;149;1045;3297;16213;1543;8073;80373;61507];
[119199;1;1;7;5;31;43;113;189;181;659;1971;3309;4237;4279;31563;29429;17443;154385];
[119215;1;1;1;13;19;43;99;91;47;477;153;3295;6281;779;17169;343;1723;171133];
[119218;1;1;1;15;9;35;123;45;417;631;1415;1835;3063;897;18947;62477;12759;97831];
[119241;1;1;3;13;31;1;31;139;411;605;1829;303;3891;15807;7335;44833;87427;62183];
[119277;1;1;3;13;29;55;97;107;241;981;1281;3295;6825;15865;4221;24695;54203;252069];
[119301;1;3;7;13;1;3;33;165;483;813;127;1717;8077;3521;23465;41705;2769;173233];
[119306;1;3;1;11;11;51;39;125;375;825;1775;2923;4903;4779;907;47787;22293;169631];
[119335;1;3;5;5;13;27;43;229;267;153;567;3403;2103;6203;29629;29715;116735;122515];
[119344;1;3;5;13;3;3;15;5;345;343;691;3703;361;2019;9309;26909;22897;103555];
[119364;1;3;1;11;9;25;123;235;131;469;1749;3681;3841;10157;15183;61413;42207;170359];
[119373;1;1;7;3;13;9;7;191;239;417;817;1381;1179;2719;21025;17429;50295;196485];
[119382;1;1;7;9;9;31;123;229;381;569;513;1617;6141;9717;31769;30159;113697;254237];
[119410;1;1;1;15;31;43;37;17;283;905;297;1317;1883;11313;5653;55655;121029;149831];
[119425;1;1;1;7;7;47;83;101;497;465;1133;3877;5371;3355;17161;50185;120837;255103];
[119459;1;1;3;5;5;19;3;251;433;303;1193;1263;2139;473;10725;57725;111411;133687];
[119473;1;1;1;7;3;1;99;115;481;395;115;1699;953;2807;7227;52781;2855;161159];
[119486;1;1;5;9;25;25;85;3;451;847;837;3669;4717;3661;29111;43735;49445;100379];
[119500;1;1;7;9;19;61;67;123;195;483;1741;2719;7809;5035;30689;21325;56191;46127];
[119508;1;1;3;11;15;39;101;27;103;807;1557;1647;1285;16169;20203;57153;60749;71361];
[119511;1;3;3;3;19;1;93;31;105;925;689;3061;7451;12667;27179;36295;61011;90321];
[119517;1;3;7;15;19;35;47;241;261;935;1033;751;6519;6911;13519;2539;40285;81535];
[119528;1;1;7;13;17;31;71;135;167;5;673;2909;4377;3453;31289;38081;21993;192933];
[119533;1;1;5;15;23;49;85;127;13;849;1661;2099;3479;3613;21723;58147;56321;203171];
[119539;1;1;7;15;23;63;3;207;445;573;1419;1161;2237;1251;23387;65259;81447;74555];
[119542;1;3;5;3;25;61;37;25;287;969;37;1615;7923;4457;27611;8519;113957;237427];
[119546;1;3;5;11;11;25;117;169;149;701;139;2835;6029;9067;841;51707;9287;115825];
[119566;1;1;1;13;31;5;9;5;313;1023;551;3635;6765;13379;29135;39737;80913;256355];
[119587;1;3;1;13;9;23;105;117;181;211;755;555;2763;13965;14743;63725;16377;203435];
[119590;1;3;1;15;11;45;111;147;471;321;381;2921;6423;629;25117;51213;126941;181931];
[119607;1;1;1;11;1;49;127;105;315;1;859;1223;5967;2521;14491;58399;45155;192567];
[119614;1;1;3;9;19;21;73;93;95;307;293;3243;4765;2253;16775;29861;3785;90357];
[119625;1;1;3;7;3;53;33;167;165;509;1133;169;6951;7715;26317;5249;86235;39649];
[119633;1;1;5;5;3;47;105;89;201;1003;877;635;2225;6391;21247;5707;1233;87055];
[119634;1;1;1;1;9;39;61;201;435;843;1245;533;1757;1117;19687;54817;32495;228865];
[119643;1;3;1;1;3;61;63;117;143;217;435;1977;2647;7631;12969;50211;26483;256329];
[119683;1;3;3;9;21;25;113;243;457;143;833;1505;3071;1845;17867;58205;103819;185215];
[119704;1;1;5;7;23;51;11;117;195;535;685;31;3037;9719;22811;42959;21021;126297];
[119710;1;3;3;1;1;17;107;245;257;547;887;45;5243;2439;22191;19503;2143;75187];
[119734;1;3;7;9;11;27;123;197;353;151;1115;403;1105;7425;7463;42065;116187;154537];
[119752;1;3;5;15;23;5;49;177;223;615;1255;2081;321;8733;19549;53027;275;62739];
[119760;1;3;7;1;17;61;3;233;249;763;369;555;1621;7221;22575;13295;99793;233635];
[119826;1;1;3;1;27;41;125;113;47;583;543;453;1213;14187;1645;35761;110051;197081];
[119922;1;1;7;9;29;43;105;125;489;135;153;2279;4079;6731;12055;60181;82563;173991];
[119931;1;3;7;3;29;1;67;151;127;625;113;2127;6723;12359;28609;60605;20375;120129];
[119977;1;1;5;7;9;13;27;171;129;199;303;4045;2047;8887;22233;57571;40545;36479];
[120015;1;3;1;7;1;5;127;203;213;691;1155;27;5409;13519;6747;42371;37089;145855];
[120020;1;3;3;9;3;33;119;25;337;715;1093;987;7157;14975;28595;19021;1243;148707];
[120083;1;3;1;13;3;41;81;151;23;787;181;2357;5077;1997;6451;25505;44875;198341];
[120086;1;1;7;3;5;15;9;169;337;487;1325;1505;465;2339;20747;8269;96875;108985];
[120101;1;3;1;7;23;7;113;181;25;989;1649;1;823;6793;18729;3599;97951;239609];
[120105;1;3;7;7;3;63;63;207;419;355;1133;2979;2071;11699;32565;61347;106475;16893];
[120155;1;1;7;5;7;3;119;133;189;341;1571;1559;4309;16203;22459;21019;80375;3453];
[120188;1;1;3;11;21;21;45;69;485;21;727;703;5209;14745;3437;54603;104357;151207];
[120195;1;3;7;5;25;17;13;147;329;93;121;315;2779;6921;425;50441;1133;252291];
[120216;1;1;3;5;5;51;15;135;323;841;409;1067;3243;4207;6833;59329;90545;116661];
[120228;1;1;3;15;25;7;43;147;153;947;79;1897;4519;14441;27181;38517;71673;158597];
[120238;1;3;3;3;3;47;109;111;273;271;741;3999;649;7367;14933;11785;92709;133815];
[120255;1;1;3;13;5;41;55;15;409;355;1255;3043;7503;3523;4261;48927;119901;149411];
[120317;1;1;5;1;11;57;3;149;409;287;909;3541;4243;4485;3611;63213;102575;49863];
[120327;1;1;3;7;15;55;119;185;511;301;237;3701;3195;1323;27511;44635;45363;117683];
[120369;1;3;3;11;3;61;125;15;235;819;467;1097;1055;16343;8329;37807;38663;145625];
[120382;1;1;7;1;25;49;117;163;413;509;63;1313;5113;6505;25475;12059;88021;168037];
[120404;1;3;3;9;9;37;15;185;359;231;1483;2999;773;10375;27103;39899;100187;54485];
[120414;1;3;3;1;13;63;111;79;133;425;1491;3735;533;13417;5161;11455;16907;132267];
[120432;1;3;1;15;15;47;57;157;453;681;1811;1685;4329;131;22763;1017;66637;1673];
[120435;1;3;7;3;31;5;105;101;431;983;1333;845;7369;15041;6527;8617;61911;137513];
[120454;1;3;7;15;3;45;57;23;393;495;769;215;3611;12907;20637;52997;88345;37961];
[120463;1;3;5;7;31;3;85;249;353;559;1803;959;4625;9413;22339;6071;124765;43973];
[120471;1;3;1;9;31;15;109;197;179;293;457;709;627;7743;1997;59625;36919;252849];
[120505;1;1;7;11;17;21;89;11;431;617;1029;2649;1725;2723;18367;46103;108063;221855];
[120528;1;3;7;1;29;7;81;187;353;807;965;3655;3255;9139;28619;32127;107901;139099];
[120588;1;1;5;3;17;9;39;59;431;829;525;1885;2387;13381;5271;29739;80413;240595];
[120616;1;3;1;5;1;5;25;9;193;971;681;2921;3271;3891;20123;37477;33141;82481];
[120630;1;1;3;5;1;63;77;93;63;399;1945;387;5457;7339;13279;34119;129903;12621];
[120644;1;3;3;11;17;11;117;189;473;23;13;1261;2153;12181;21075;33179;43355;168293];
[120672;1;3;5;11;21;13;73;227;211;939;885;2091;1123;14809;15705;56675;58087;1451];
[120677;1;3;7;1;15;15;101;235;287;675;1741;3885;6211;14817;10235;29289;60401;27639];
[120718;1;3;5;13;13;7;117;31;143;505;1823;2841;2133;7305;14093;14229;85179;136793];
[120725;1;1;3;15;27;15;67;237;315;793;207;3781;5201;13191;9601;44041;116097;178543];
[120730;1;3;1;9;9;47;53;225;109;831;1757;349;6353;15417;16395;36295;10901;122349];
[120756;1;1;1;1;1;17;109;13;123;537;1859;3717;4441;4271;29017;13601;18533;216695];
[120759;1;3;3;13;31;23;45;233;29;295;761;757;777;3499;26715;24153;113777;256337];
[120765;1;3;5;7;23;57;37;179;511;897;2031;1285;3957;15085;19993;28819;39959;187445];
[120795;1;3;1;15;25;41;121;227;433;859;357;3107;3241;879;10763;59473;73145;258493];
[120821;1;3;3;5;13;9;85;117;347;161;995;549;5443;9057;28931;57549;27523;54717];
[120850;1;1;5;13;13;33;97;37;55;367;403;2361;5717;4433;26921;14227;69445;100337];
[120868;1;3;5;7;1;41;89;165;163;1;685;3577;1079;1057;125;35853;8387;113035];
[120880;1;3;3;13;3;59;119;51;325;205;821;1417;2097;13725;31785;53803;15737;2013];
[120885;1;3;7;7;1;45;95;221;249;65;1479;2163;5761;15321;8013;25771;110897;214127];
[120892;1;3;3;5;25;11;27;29;95;955;1989;3775;609;7073;4571;38857;92205;156209];
[120897;1;3;1;13;29;57;97;47;499;641;587;2125;2257;13911;13993;1715;46233;181279];
[120912;1;1;7;13;7;55;69;235;379;269;1969;2733;3677;1707;26999;64041;98111;138691];
[120934;1;1;3;5;27;63;65;251;413;903;1307;2941;5649;11271;1935;49389;37995;218197];
[120991;1;3;3;13;7;1;45;225;13;169;581;1657;117;10251;23435;40379;127085;88185];
[121004;1;1;7;5;21;63;69;37;459;115;1403;1939;6437;13149;3597;50115;129075;260613];
[121021;1;1;3;5;29;57;15;223;131;907;1561;1103;4355;2763;6359;55401;1751;53143];
[121022;1;1;7;11;15;5;17;159;505;407;1873;2501;2203;12559;5123;53281;29307;16215];
[121036;1;1;1;15;9;41;77;145;325;529;1939;3835;3109;12215;18323;2551;89793;94745];
[121041;1;3;1;9;21;5;7;57;99;1005;1211;4063;6851;7653;29283;15463;121289;187055];
[121069;1;1;3;3;13;11;17;125;173;283;1419;2533;6875;16031;26633;51027;27343;74257];
[121078;1;1;3;11;29;49;87;19;367;941;983;1041;8099;8735;30123;62665;87051;98745];
[121126;1;1;1;15;25;57;97;177;467;181;923;3833;5405;14335;23495;48323;70331;136825];
[121135;1;1;1;13;21;17;29;237;305;117;1077;2999;1879;6875;19321;10999;130513;160883];
[121138;1;3;7;15;19;47;89;153;287;7;1429;1507;2853;4197;11195;33891;59063;189601];
[121162;1;1;3;15;31;5;113;71;13;925;147;451;5701;13671;13943;13799;59627;115715];
[121176;1;1;1;5;13;25;51;11;409;393;1479;2583;3101;303;17609;10653;69107;150459];
[121186;1;1;5;7;21;27;107;77;61;467;1723;1247;287;1039;25347;18111;24837;42903];
[121209;1;3;5;5;1;29;57;177;311;9;819;3235;3887;9679;11849;31755;68467;135587];
[121212;1;1;5;5;29;15;13;69;163;709;1405;3835;777;7567;10153;5043;129465;59113];
[121221;1;1;1;13;3;47;97;101;179;53;1919;17;3597;11769;17971;39257;76167;255653];
[121225;1;1;7;5;1;45;121;223;299;271;1857;1955;5509;1245;9519;60547;78497;191251];
[121228;1;1;1;11;5;57;87;113;59;547;1591;1905;475;4687;27591;43807;9617;70769];
[121239;1;1;7;1;1;35;35;11;107;401;827;2271;2131;12751;25771;51311;46897;198655];
[121245;1;3;3;3;15;29;91;147;9;611;1739;3211;3883;14205;24073;37445;54451;208123];
[121264;1;3;7;1;25;53;33;161;365;651;1263;1623;1767;3789;18013;52133;60119;100859];
[121270;1;3;5;9;15;9;97;67;379;981;1323;1095;3701;3257;13647;12511;53375;156689];
[121299;1;1;3;5;9;23;97;239;171;501;1549;1029;8019;5023;9439;14223;54433;152855];
[121306;1;1;7;13;17;35;111;169;81;599;1673;3461;7905;7925;16311;20327;57109;158719];
[121315;1;1;3;15;7;33;23;33;273;987;1489;363;4017;8919;28839;10143;114179;218155];
[121317;1;3;5;13;29;5;61;133;65;933;509;551;7365;3703;15003;27849;64211;140383];
[121321;1;1;1;13;7;25;49;1;269;601;251;33;2443;13725;5805;63347;109489;111491];
[121324;1;1;7;9;31;23;117;71;371;733;605;4019;4577;3887;31061;24939;57905;148331];
[121330;1;3;5;1;3;35;35;227;355;27;1673;2173;5001;14613;6343;40775;72349;101287];
[121339;1;1;7;15;29;3;43;77;43;51;1495;2577;2093;7515;20151;44533;32223;6355];
[121346;1;1;5;5;11;47;91;221;35;969;343;3287;857;4851;12599;939;53615;262125];
[121370;1;1;5;7;29;11;67;155;317;629;211;583;1061;13243;13999;45405;18187;99021];
[121372;1;3;7;13;3;39;5;207;175;515;1181;739;379;9919;12079;18903;62475;239383];
[121393;1;1;1;15;25;15;113;215;281;861;1055;2577;5545;12365;16097;35775;8331;119353];
[121396;1;1;1;1;25;55;111;185;485;361;155;4077;5517;16057;19069;40129;38959;211233];
[121414;1;1;3;3;13;1;93;129;243;813;115;177;53;8251;32351;63847;54537;25527];
[121442;1;3;5;11;25;47;113;69;285;451;2011;81;6535;3409;8647;56575;975;149571];
[121475;1;1;7;7;19;1;75;123;413;697;41;3179;4075;15967;2477;17549;54193;258657];
[121499;1;1;5;5;11;23;19;253;303;255;901;875;1517;6953;25189;26763;28843;167705];
[121512;1;3;7;7;17;45;31;79;279;965;1869;1201;1627;14035;11651;45021;76171;49137];
[121518;1;3;1;15;9;55;83;59;437;915;1667;89;2797;1841;29261;23497;55785;102265];
[121588;1;1;5;5;3;59;17;131;199;541;1647;2175;4449;6081;10609;39467;72945;32423];
[121597;1;3;1;7;5;7;85;11;255;397;87;1661;6523;5699;29407;28015;50783;246625];
[121612;1;3;3;13;5;61;123;147;295;37;301;2549;7615;5725;32477;18121;69353;242579];
[121629;1;3;5;7;9;45;83;211;475;281;743;3955;7811;6043;30547;5315;53345;25775];
[121630;1;3;3;5;7;63;125;43;131;353;345;1689;5483;5467;13445;13041;68381;134567];
[121634;1;3;5;11;31;9;123;53;237;911;349;3737;1867;7375;3031;4191;8697;182255];
[121680;1;1;3;3;11;11;89;251;69;93;1241;1719;2227;1793;21683;58099;110831;24835];
[121725;1;1;5;9;3;57;3;17;11;217;923;3623;727;1837;21203;63007;33691;216259];
[121798;1;3;3;9;21;25;83;115;325;921;811;303;3555;10669;5837;45585;61923;159061];
[121815;1;3;3;15;17;29;77;75;509;363;199;317;7375;11971;15679;17135;101925;103375];
[121822;1;3;5;5;29;45;85;151;73;329;911;3055;2381;4717;5133;58987;59885;226689];
[121837;1;3;5;1;11;59;17;83;385;867;215;2275;7247;10613;6493;63843;74483;134271];
[121840;1;1;7;13;29;25;77;61;281;439;353;2213;697;14741;1597;7515;7703;149123];
[121869;1;3;7;7;7;53;77;21;483;793;969;123;3581;12489;22943;54573;25785;178419];
[121878;1;3;5;3;17;59;75;55;125;569;1625;77;4593;8493;5259;54537;100479;107509];
[121897;1;1;1;15;5;7;11;169;349;133;1113;2877;6109;16275;9755;1385;55005;36095];
[121920;1;1;7;7;21;25;41;161;11;321;343;705;4601;12867;21997;25283;78467;159089];
[121929;1;3;7;1;15;3;71;227;427;883;1021;1405;7791;12669;9159;30931;105993;40917];
[121944;1;1;5;5;25;41;93;57;125;915;701;2589;7147;15369;28307;54635;13253;97177];
[121999;1;3;1;13;11;63;103;241;317;927;965;3179;5213;13849;11509;52665;1637;235647];
[122008;1;3;5;3;31;31;111;9;339;1017;1715;101;6849;14329;31607;40741;73067;119001];
[122056;1;3;1;13;3;55;53;15;185;717;1447;3029;4899;14217;19949;32817;24829;206829];
[122062;1;3;7;9;21;11;33;213;5;769;1807;2179;63;5167;23235;25495;113299;129419];
[122067;1;3;7;11;11;33;23;125;21;609;595;1329;6175;15837;3889;57797;81453;211413];
[122083;1;1;5;11;31;7;13;73;143;559;1541;275;3349;2987;21797;32921;125395;247667];
[122095;1;1;3;11;19;1;23;167;337;75;1597;3591;2705;7323;5957;7317;58945;44625];
[122110;1;1;5;11;27;19;63;231;353;645;531;3861;1681;6901;16217;20639;70077;220233];
[122118;1;1;5;15;31;41;19;253;147;365;509;1199;6699;14633;1339;48203;58707;83315];
[122127;1;1;5;7;19;47;47;17;267;139;549;803;4625;6851;32141;12891;43785;211361];
[122189;1;3;1;13;19;35;13;45;167;627;1449;3041;5043;9279;15889;41675;25769;13835];
[122207;1;3;7;7;19;47;13;117;403;79;1623;3741;3255;2301;25;2311;5237;150879];
[122226;1;1;1;15;29;43;75;21;237;809;129;2637;181;15921;30709;61281;82405;232885];
[122253;1;1;3;15;15;15;55;217;243;579;945;3993;1875;2425;25045;36729;42935;213703];
[122301;1;3;3;1;5;59;115;71;483;327;701;2893;1815;4611;3843;5893;126479;167807];
[122324;1;3;1;7;17;59;115;191;3;615;215;2121;5085;15233;16661;6215;31061;192847];
[122337;1;3;1;1;21;25;41;195;151;905;1587;439;3317;2275;4743;33505;1185;254873];
[122362;1;1;3;9;11;49;37;117;419;1007;789;1323;345;2047;20697;57063;69167;219393];
[122368;1;3;1;1;25;49;81;79;117;1015;1777;2427;527;10139;16261;42587;33933;19749];
[122371;1;1;5;15;31;43;19;17;97;591;891;177;7835;3979;15473;2173;65555;182773];
[122378;1;1;3;15;13;53;31;179;247;635;683;423;2981;14401;26385;10935;68497;181703];
[122404;1;3;3;9;25;55;43;29;487;969;989;3561;6425;11619;5773;56515;17461;151239];
[122443;1;1;5;13;3;31;73;51;213;215;297;783;697;14197;7277;60697;985;189995];
[122451;1;3;3;5;9;47;69;27;15;407;1029;2541;183;4413;5143;33903;49509;49007];
[122457;1;1;1;3;5;3;9;165;215;577;1657;363;737;5483;5955;34533;45861;104645];
[122458;1;1;5;7;31;27;37;215;125;915;1297;3095;1529;12737;25675;29355;83939;106765];
[122479;1;1;3;3;1;49;29;115;395;647;147;3905;1025;8873;10587;25471;72089;171467];
[122484;1;3;7;1;21;55;57;233;487;883;439;929;1405;13709;2389;20205;17579;9129];
[122521;1;3;5;5;23;51;55;45;307;855;933;1443;4757;8719;28401;35189;105329;9211];
[122540;1;3;7;11;29;17;17;147;221;997;1433;59;8027;231;30335;2153;21393;116661];
[122545;1;1;7;3;5;43;47;155;357;915;1923;3315;4107;9785;4847;57683;87569;179583];
[122552;1;1;7;7;27;5;37;95;265;113;143;3755;5793;5601;16621;54777;15989;158933];
[122560;1;3;1;1;13;31;113;255;367;559;1777;4065;8061;15785;10345;54833;95277;159347];
[122575;1;1;1;15;3;43;85;251;193;19;1685;271;1779;11901;18983;65361;128217;248051];
[122578;1;3;5;7;29;21;5;47;263;913;83;3233;113;8341;14473;37405;2363;155931];
[122605;1;1;7;15;7;25;41;39;315;323;827;1277;1211;4465;21161;36865;6689;139147];
[122661;1;1;1;9;11;45;81;235;31;247;77;1877;7119;16007;2225;65;85537;99251];
[122673;1;1;3;11;19;5;49;179;345;961;349;2099;2317;12771;27169;59389;116071;68333];
[122722;1;3;3;5;15;53;47;177;103;941;87;2813;7729;8003;7717;40095;74569;106617];
[122728;1;1;7;7;31;23;105;205;325;855;1529;3601;7151;15827;16241;18221;55771;139225];
[122739;1;3;5;13;13;5;95;167;25;779;1147;221;5055;10943;28077;15131;89501;137407];
[122751;1;3;7;13;31;3;105;163;41;823;1493;2985;5589;3543;24683;34469;40595;200875];
[122762;1;3;5;3;27;35;105;163;477;667;45;319;3201;11535;19349;55253;60275;209597];
[122769;1;3;1;11;5;13;25;225;169;925;1617;537;891;5583;7181;39953;97537;104019];
[122772;1;3;5;9;13;1;69;147;465;259;1219;2407;4015;4883;4333;40441;31289;52989];
[122782;1;3;5;5;17;29;105;233;307;807;1535;251;135;925;6865;59739;112757;208275];
[122798;1;1;1;7;9;21;49;247;33;127;1277;1745;139;12165;23517;50235;101003;109031];
[122810;1;3;5;9;19;7;9;139;511;901;551;2717;6091;3213;819;51381;108333;119681];
[122812;1;1;1;3;19;17;73;19;313;589;1965;1745;921;4237;12527;10735;110139;171513];
[122818;1;1;5;15;25;29;15;217;87;793;419;915;1359;10507;25343;62977;100913;110041];
[122829;1;3;7;15;15;15;91;243;441;437;1759;2659;2319;7783;16857;19051;15463;253115];
[122851;1;1;5;13;15;5;7;165;355;559;217;235;3565;12047;2387;62285;73363;238551];
[122857;1;3;7;11;5;5;69;205;179;815;335;979;2129;6221;31987;13623;23103;24373];
[122868;1;1;7;11;31;51;55;93;195;219;825;2919;4495;5927;11813;16415;121595;188613];
[122893;1;1;3;1;3;11;73;45;141;219;337;2569;6549;3699;2417;2945;19389;82561];
[122894;1;3;1;13;5;47;47;81;11;57;1965;2173;3209;10617;19887;5571;61403;37401];
[122902;1;3;3;7;3;5;99;253;287;655;813;3365;2387;8951;1561;37637;97625;148699];
[122921;1;1;3;5;9;31;49;7;55;607;1489;3229;5871;1271;22751;32309;16125;93409];
[122959;1;3;1;5;19;35;29;233;407;297;1465;3089;7535;7221;24469;42653;65719;196771];
[122984;1;1;7;13;17;19;37;45;211;545;963;79;13;8319;8045;24975;122749;25845];
[123001;1;3;5;3;23;23;53;101;363;49;1351;3419;1603;10795;5289;63695;113911;228301];
[123038;1;3;7;9;15;59;125;59;11;397;693;397;3829;14349;13973;54739;22093;216009];
[123076;1;1;1;13;5;63;21;23;421;35;589;803;6193;11375;9501;34441;68421;120109];
[123100;1;3;3;7;23;25;79;203;177;173;175;809;4331;6953;4999;34345;94481;88683];
[123107;1;3;3;3;1;51;109;195;83;747;63;325;927;1757;32055;37185;22697;41509];
[123122;1;3;5;13;1;63;45;73;121;445;1935;3373;563;7503;17941;60313;42219;220917];
[123139;1;3;5;13;27;31;7;83;109;387;447;1691;1301;7449;8075;30713;87207;84855];
[123175;1;3;1;5;25;51;83;11;261;977;1415;2973;1789;12641;16279;4225;44237;173561];
[123190;1;1;5;15;17;47;105;199;83;705;1215;2759;7509;10407;4005;4575;65961;209933];
[123201;1;3;1;13;27;3;5;199;405;515;291;3399;1497;14755;30229;35075;111585;16633];
[123219;1;1;1;13;17;53;93;161;447;903;947;1871;3597;10575;18389;48551;65229;32591];
[123232;1;3;5;11;9;7;53;155;299;523;1653;3517;2725;9485;27099;47895;30169;260463];
[123255;1;1;3;13;11;45;31;183;445;21;313;2597;195;16053;7323;52951;25919;9323];
[123285;1;1;1;15;1;35;15;115;53;561;1141;3261;83;2547;8925;43455;112755;94157];
[123328;1;1;3;5;27;25;81;51;209;87;379;3167;4953;13885;20159;103;115363;123585];
[123385;1;3;5;1;25;29;107;225;77;435;2009;4069;3703;8855;14101;61683;16993;110823];
[123397;1;3;7;3;31;25;51;117;397;271;89;3571;2357;4923;16303;2357;107775;73809];
[123404;1;1;3;1;29;21;33;67;363;753;915;3715;2013;8439;5779;267;32687;104283];
[123419;1;3;1;11;11;7;31;43;339;917;2005;759;4285;1933;4341;19111;130651;122853];
[123435;1;1;5;1;17;63;85;63;387;127;1313;619;6525;9003;10915;64507;13175;45219];
[123437;1;3;7;9;25;15;43;13;411;391;571;527;8175;10849;20093;2987;29869;77207];
[123443;1;1;5;3;29;53;105;57;91;977;1103;2977;5617;7203;26717;28463;55909;59943];
[123500;1;3;1;7;1;47;111;215;189;377;11;871;2267;5705;8165;38895;71025;10921];
[123506;1;1;7;9;29;55;1;103;505;697;317;3209;3643;13689;8499;14671;67937;100467];
[123511;1;3;1;5;25;15;99;199;117;957;1421;1719;5185;15247;28615;2657;46867;190135];
[123512;1;1;7;9;27;55;81;47;15;497;537;857;2905;1909;3341;32625;123189;21875];
[123518;1;3;1;3;19;51;97;143;305;1021;543;829;7593;8101;6337;4869;19177;38981];
[123522;1;3;3;15;9;37;51;193;295;731;809;4065;3377;15303;12505;11327;76191;139899];
[123545;1;1;5;1;3;19;5;223;379;7;755;1127;505;9429;27409;50817;97599;179019];
[123572;1;3;5;3;5;11;83;119;3;311;405;2401;1821;1381;4567;44079;61903;183583];
[123587;1;3;7;9;7;11;107;95;271;537;335;3079;6695;1163;32055;44985;29075;94235];
[123594;1;3;7;7;7;57;59;85;199;563;1835;351;7675;2601;3717;57975;92529;101511];
[123607;1;1;1;5;17;5;97;43;101;141;1511;199;7157;3169;24815;55653;104195;37951];
[123608;1;1;1;11;23;29;41;47;447;583;773;859;1657;8707;16709;53477;42037;186809];
[123630;1;1;1;13;13;5;85;9;213;511;1003;811;2271;14715;21423;48127;50613;214031];
[123635;1;1;3;5;7;31;87;101;297;853;1599;1521;4965;9655;23543;62277;11231;49931];
[123659;1;1;7;7;19;31;9;165;207;919;739;3849;2121;867;3233;40867;75721;5327];
[123692;1;3;7;1;17;3;27;13;431;283;465;1427;1937;15601;21793;9315;54285;196453];
[123695;1;1;7;3;17;39;65;137;511;19;1357;3373;5227;2485;1151;25061;117507;119219];
[123700;1;3;3;9;9;23;13;235;505;625;115;3859;6943;14719;6363;14957;28241;187989];
[123730;1;3;7;13;11;31;23;39;463;441;1145;417;4177;1655;26491;16895;26263;198157];
[123748;1;3;3;7;25;55;121;157;131;537;1891;2367;1717;2331;20251;8679;62657;121957];
[123751;1;1;1;11;7;43;59;101;333;961;569;1603;3009;6539;9627;5759;44401;127613];
[123770;1;3;3;3;1;27;15;135;235;215;627;2427;2647;3201;22873;64445;32635;16587];
[123793;1;3;7;7;5;49;63;103;467;897;117;1149;6045;5003;5005;6183;90815;190909];
[123800;1;1;3;3;31;43;45;227;363;409;1097;3155;1519;14461;29377;19577;52595;94041];
[123803;1;3;1;1;3;25;83;243;57;243;389;1427;5197;13125;18571;17845;74961;125569];
[123851;1;3;5;5;1;39;11;175;97;1001;143;3653;5887;5845;5691;5433;62629;176261];
[123859;1;1;1;13;11;41;41;155;17;823;1507;733;5663;13657;24133;9971;27179;108075];
[123866;1;1;7;9;19;9;103;29;427;363;931;3959;1629;5127;14807;61937;127175;237233];
[123868;1;1;1;5;29;53;51;229;123;1001;697;411;4669;5051;18447;55437;129269;72613];
[123877;1;3;7;3;19;53;111;131;255;547;653;2839;1447;14397;5707;23773;127897;135177];
[123884;1;3;3;5;21;37;53;219;359;341;489;2477;3383;6931;7753;2619;114267;63271];
[123909;1;1;3;15;15;15;95;171;301;563;603;593;4037;7305;10849;11753;103087;74887];
[123910;1;1;5;3;11;51;105;35;155;643;569;1697;1679;7547;19289;7065;57359;142855];
[123919;1;1;7;15;23;55;17;67;375;559;355;165;93;973;22831;48027;98435;59945];
[123927;1;3;7;3;5;43;9;253;111;819;45;3461;4821;14735;14469;29793;30681;26359];
[123937;1;3;3;5;15;1;39;233;63;287;131;3453;427;4929;30085;18583;50119;262101];
[123950;1;3;7;9;31;7;127;157;287;57;1091;1989;5045;13071;27705;58125;85317;66649];
[123957;1;1;1;15;17;29;25;223;311;489;1901;3197;1813;10097;31915;54871;32289;227001];
[123979;1;3;7;5;31;35;69;87;131;963;1125;1109;8037;3257;27655;50999;3715;57851];
[123996;1;1;5;5;27;7;119;29;425;721;541;3069;3349;13623;12293;51395;14033;61545];
[124040;1;3;7;3;17;49;103;115;387;729;1389;2257;3273;3375;23143;2835;28071;79533];
[124054;1;1;3;7;9;19;55;159;261;467;17;2595;3947;7045;193;23629;89067;81197];
[124063;1;1;1;15;13;39;103;195;251;769;1003;2707;3263;8451;8007;53789;112653;258717];
[124067;1;3;5;1;3;21;29;217;125;779;1597;513;2677;3979;31903;64813;69963;92887];
[124088;1;1;3;11;11;59;81;237;447;703;41;3369;3547;14935;31693;52005;74149;131039];
[124101;1;1;3;1;23;1;33;93;275;847;921;2745;533;8975;30529;46809;98975;75541];
[124154;1;1;7;7;15;1;3;213;71;1009;1951;3015;713;9365;21949;60983;117633;225387];
[124162;1;1;1;11;31;27;59;179;231;635;1555;2765;31;15065;22719;59251;84733;96769];
[124167;1;3;7;3;19;5;35;207;317;735;943;3987;4021;11229;13015;713;125167;55887];
[124176;1;1;3;1;27;49;81;17;253;633;43;2953;3151;8429;30625;28551;126683;175087];
[124195;1;3;3;3;9;53;111;245;57;557;945;2957;7669;12537;17291;9713;87727;44739];
[124230;1;3;1;1;5;39;77;127;87;687;1485;1555;2567;13551;17075;24003;47627;129813];
[124267;1;3;5;9;25;35;87;233;439;563;1719;419;4459;4285;25157;943;111543;232107];
[124346;1;3;5;11;1;13;97;153;459;551;73;2087;3985;4661;15603;22211;123163;187233];
[124389;1;1;7;13;17;59;5;219;353;441;387;441;3009;485;20081;38023;50659;159243];
[124418;1;3;1;7;21;31;117;49;227;677;417;1153;1611;1669;25161;52223;15109;114759];
[124420;1;1;7;9;19;13;111;7;1;701;731;2075;685;15679;19149;44315;41719;243975];
[124454;1;3;3;7;15;63;59;105;327;39;1497;2407;2865;7065;9957;20031;45359;73657];
[124490;1;3;1;13;7;3;55;221;443;953;15;2455;4681;16247;18179;44731;41323;172621];
[124503;1;1;3;9;1;27;65;167;115;137;819;2129;3393;5901;11735;62753;14941;21425];
[124519;1;3;7;11;7;9;41;175;237;481;59;265;2135;9419;3937;55959;48343;172549];
[124533;1;1;1;13;23;33;105;87;461;297;1345;3715;7715;16369;19017;15141;10873;109641];
[124544;1;3;5;1;11;1;13;41;447;511;447;2295;2401;14171;16269;50453;40361;205857];
[124589;1;1;3;3;27;7;35;193;113;341;335;2113;343;4575;20863;40383;86787;142603];
[124616;1;1;7;11;17;25;51;89;341;237;1233;1505;7401;6887;26897;20127;51077;107559];
[124630;1;1;1;15;9;59;29;115;339;785;201;947;1501;6883;169;44059;17527;197623];
[124636;1;3;7;3;17;59;15;5;379;347;821;4047;3565;13689;23275;27901;121401;43077];
[124645;1;1;1;7;15;11;35;29;59;99;181;3035;3239;1553;32319;64195;115247;149211];
[124652;1;1;5;3;31;49;87;177;231;167;373;1125;5919;4805;31983;42873;30169;91853];
[124663;1;1;5;15;7;63;37;15;459;449;1835;1769;2527;2577;4251;62459;76699;81721];
[124667;1;1;1;3;21;15;19;183;423;827;341;2101;3797;7103;30845;24511;115337;117019];
[124690;1;3;5;5;19;1;97;13;491;51;445;1987;7481;2613;23141;36603;26917;177397];
[124755;1;1;1;5;15;43;21;167;259;989;1937;1519;2201;13973;18031;31583;57557;252737];
[124757;1;3;3;7;31;11;89;53;279;83;1247;1221;5499;1199;361;22269;88633;134975];
[124819;1;1;3;5;9;5;113;41;143;655;1147;2043;4229;10523;1453;1735;76259;30607];
[124862;1;1;1;11;5;7;9;155;221;619;813;3111;6039;10789;10905;33285;62841;229217];
[124864;1;3;5;9;19;19;123;65;419;597;87;3843;4857;15903;23655;13023;8389;230803];
[124874;1;3;3;15;9;19;51;223;197;759;139;59;6547;1043;5077;55267;23681;17099];
[124882;1;1;3;3;15;43;63;85;227;961;1043;1069;6557;7499;31639;4345;26991;132783];
[124903;1;3;1;1;25;33;59;219;435;105;1001;323;2729;12517;16607;57533;101167;53829];
[124915;1;3;7;7;9;55;3;247;303;453;861;817;705;14337;15965;28867;126763;204005];
[124938;1;1;3;7;1;39;15;39;359;313;1753;2835;387;16223;10945;19481;19995;29989];
[124945;1;1;1;5;3;31;103;123;493;1023;119;2175;2273;11637;21605;23349;100759;41227];
[124973;1;3;7;13;5;13;17;7;341;945;621;1421;3893;5825;26777;35497;13791;25415];
[124986;1;1;5;1;19;27;39;7;177;749;1217;2133;6913;13489;23713;1085;31529;179741];
[124991;1;3;3;3;15;21;5;145;281;131;1347;19;4917;8655;2515;36927;56551;202039];
[125011;1;1;3;7;27;31;33;255;511;195;1493;2221;2157;9303;3957;14163;70435;215763];
[125014;1;3;3;15;31;41;33;37;239;865;375;2217;809;11961;29393;52145;76223;202623];
[125082;1;3;5;11;5;57;73;193;341;843;1817;231;65;5941;29693;31751;57081;180977];
[125105;1;3;1;9;29;57;85;107;343;891;465;2413;1965;7303;7461;25857;110517;16995];
[125163;1;1;7;15;7;49;121;211;253;511;1385;1205;33;7713;20059;47353;3267;215759];
[125165;1;1;3;9;15;63;45;155;415;589;651;3707;5429;4497;13733;21231;18953;28671];
[125205;1;1;5;15;7;57;31;109;427;921;629;3439;7615;4535;1507;58931;49597;214397];
[125219;1;3;3;5;21;35;9;241;67;767;659;1639;7797;5209;14851;55311;108549;175937];
[125239;1;1;7;15;21;61;13;47;267;269;1169;257;2481;8345;1061;28119;127197;95379];
[125240;1;1;3;7;21;35;121;223;145;665;1389;2105;5499;1377;32417;39027;5335;248315];
[125257;1;3;3;9;13;33;57;225;123;703;1049;709;7347;11317;12339;23247;62157;85931];
[125284;1;3;3;3;5;3;105;115;13;675;757;987;6429;13017;21347;38829;82153;220677];
[125302;1;3;1;13;5;51;75;205;7;561;207;1133;3303;1889;17093;5933;48109;244387];
[125327;1;3;3;7;11;11;71;243;235;941;1875;2387;1139;16275;4537;18791;67927;156759];
[125336;1;3;5;5;11;35;29;5;351;223;847;1539;4903;7619;24907;37071;57899;32981];
[125355;1;3;1;7;23;7;119;17;123;845;1423;2995;3595;13287;31217;33939;6891;156477];
[125363;1;1;1;9;11;55;121;85;175;757;1093;513;1117;14049;22377;4623;38511;51391];
[125365;1;1;7;1;17;1;7;185;173;841;61;2735;6679;7617;17309;58047;11791;228635];
[125372;1;1;5;5;1;1;61;57;37;857;531;2655;1907;4245;3047;50489;93447;116637];
[125378;1;3;5;7;27;47;121;95;73;63;539;137;1765;4659;31141;24495;109541;16421];
[125383;1;3;7;13;13;25;47;45;97;243;1509;3539;4791;5627;31981;57663;65359;32183];
[125387;1;1;1;7;15;57;117;249;183;849;557;833;5751;8035;3371;11389;125581;248799];
[125390;1;3;1;15;13;31;59;243;17;473;289;1527;649;2807;6183;6173;74381;261673];
[125414;1;1;7;7;19;17;95;81;191;487;2023;307;3261;13885;9285;30831;114009;26483];
[125435;1;1;3;11;17;21;85;193;477;267;393;39;5793;8621;25379;9721;13947;44235];
[125466;1;1;7;5;27;33;93;9;471;751;1279;695;2625;7061;29577;5403;80705;77895];
[125481;1;1;3;11;7;25;125;9;233;935;1897;3685;595;15499;43;29251;18029;250231];
[125522;1;1;5;1;9;55;125;179;287;371;233;149;5639;5737;25251;103;117015;35579];
[125531;1;1;5;9;17;33;69;15;209;521;1083;2469;679;9307;31539;63889;48825;126327];
[125544;1;3;5;15;15;41;105;121;21;935;721;445;6759;4227;15227;54933;69589;2689];
[125564;1;1;7;15;1;15;111;141;279;1013;825;1069;3793;12929;153;11463;87759;179987];
[125588;1;1;1;9;15;59;109;103;223;695;1979;1241;2559;8627;10559;53319;94311;245193];
[125602;1;1;5;3;1;41;51;129;297;15;637;2489;343;13549;7707;36757;55703;161043];
[125613;1;3;5;1;13;35;119;219;319;733;789;1343;8035;15049;981;14477;13717;177481];
[125621;1;1;1;11;5;17;3;43;129;705;1701;3635;1201;12283;27443;54257;102281;211859];
[125648;1;3;1;13;7;63;9;45;283;41;801;131;2797;13329;19011;21055;122965;7961];
[125651;1;3;3;5;9;27;99;129;499;523;1939;3661;455;12601;11723;3727;32671;78251];
[125681;1;3;7;5;9;57;63;47;49;745;945;2927;6659;1023;9991;55379;105295;259901];
[125719;1;1;3;3;3;47;15;237;193;409;1165;3581;719;3049;14679;31559;7825;96083];
[125773;1;1;7;11;9;55;29;123;163;415;2013;97;1471;1409;28867;50405;99417;57113];
[125774;1;1;7;15;5;17;57;123;25;119;1699;1289;3139;7177;13465;33583;34517;182669];
[125779;1;1;3;1;15;45;79;7;461;223;691;3071;6233;14997;4083;65391;60571;82929];
[125786;1;3;5;1;25;39;89;105;497;685;1921;133;4849;8467;609;62183;123787;223025];
[125792;1;1;1;13;3;57;117;241;501;107;1253;3097;603;10645;3395;13997;112527;208263];
[125822;1;1;7;9;7;31;25;97;205;785;517;549;6841;7097;9635;17151;57135;105469];
[125828;1;3;7;1;25;35;43;75;179;1023;1921;1529;2791;6747;9135;61801;46729;26821];
[125831;1;1;3;1;31;49;107;219;285;501;1503;3103;5257;14561;31493;7753;34375;260357];
[125837;1;3;7;13;15;7;75;57;329;67;1541;2445;3069;6723;10189;22913;110781;243765];
[125880;1;1;5;3;5;45;47;39;493;787;1019;3933;535;1763;139;45967;123167;115019];
[125891;1;3;1;3;23;59;93;139;349;973;1401;2109;701;461;19199;21733;80009;37239];
[125922;1;1;3;5;3;39;117;77;257;117;1991;3371;509;3963;14579;62459;52281;99209];
[125928;1;3;1;15;29;47;73;157;429;497;39;123;4851;12871;4567;29453;90777;188683];
[125931;1;3;3;1;17;25;5;247;61;81;1555;2167;6003;15911;16023;7841;50731;229163];
[125941;1;1;5;9;9;39;89;37;105;133;333;2863;7249;2355;9407;28145;25923;68827];
[125948;1;3;7;13;15;55;11;93;197;447;1793;1793;4639;1869;1711;1439;15899;106931];
[125960;1;1;5;13;23;11;67;155;511;363;1073;2249;719;11167;7953;21699;55735;47353];
[125973;1;1;3;3;21;59;123;227;65;695;1769;4057;7071;1827;13639;45711;84019;96897];
[126014;1;3;1;11;25;51;57;139;147;589;1565;511;3629;7329;9565;62893;85789;112047];
[126016;1;3;5;5;23;11;93;75;25;947;1489;4081;3395;4655;27853;41299;89447;100971];
[126036;1;3;5;11;25;63;93;227;411;49;403;437;1739;8453;31693;51439;89729;113405];
[126043;1;3;7;9;29;13;51;155;403;627;173;2111;833;11453;17673;7121;52943;114835];
[126062;1;1;5;13;11;11;105;101;309;577;1003;3667;3489;11807;6119;13773;89879;12391];
[126076;1;3;7;9;17;11;111;239;225;723;933;3353;2003;5273;207;38539;82539;209781];
[126116;1;1;7;13;15;53;69;105;155;445;353;617;5625;13439;29223;60439;119635;49643];
[126125;1;1;3;11;13;25;107;27;109;313;1721;2647;1861;10631;17131;31365;65319;102905];
[126145;1;1;1;7;21;29;39;167;341;115;1523;2209;95;4399;3881;38875;107691;132471];
[126152;1;1;1;13;15;61;125;23;301;407;1497;3731;7013;5405;31233;51701;45619;107407];
[126175;1;3;5;5;31;27;77;21;339;1013;371;19;5733;2177;15547;27595;6805;172695];
[126188;1;3;5;11;5;15;71;23;441;169;1715;437;1791;293;13441;11225;119119;223035];
[126199;1;3;1;5;11;15;95;127;433;789;899;2591;2339;8237;20765;32897;51511;58437];
[126205;1;3;5;9;11;57;103;5;401;51;1813;923;1983;1853;21913;3051;56309;19423];
[126213;1;1;3;15;3;3;41;5;231;35;391;185;7585;1005;20311;11193;18275;114131];
[126220;1;1;3;9;13;13;115;203;223;575;459;1839;3949;16027;23137;13723;19195;249337];
[126286;1;1;1;9;21;51;39;245;187;609;319;2927;3625;10789;31291;45557;45935;132447];
[126294;1;3;3;9;25;37;47;55;219;409;1927;553;3953;6209;11807;11133;48047;132437];
[126300;1;3;1;13;23;31;109;167;281;179;233;1603;7391;9091;27021;31213;13093;86017];
[126322;1;3;1;13;13;15;7;29;409;59;505;1307;6247;6055;5531;59727;58069;84049];
[126324;1;1;5;7;19;7;103;245;133;609;1087;2365;3341;1689;18841;19625;47413;63445];
[126343;1;1;7;3;11;27;79;75;97;355;493;2035;3413;11835;9157;51173;1;71797];
[126344;1;1;5;5;29;1;43;135;473;329;1197;1693;3823;7723;24771;22349;94383;41461];
[126430;1;3;3;15;25;9;79;213;317;615;541;441;505;13665;3691;17825;49303;91783];
[126433;1;3;1;11;27;33;65;31;469;799;1251;3357;5239;5651;13317;28553;64225;9805];
[126448;1;1;7;13;9;49;77;43;363;719;1943;1285;1587;1047;29419;24025;89901;229095];
[126451;1;1;1;15;19;57;33;243;111;183;497;603;923;1957;6493;11833;7331;229975];
[126457;1;3;1;1;13;43;31;25;169;303;69;723;1745;1025;14301;2523;111887;179519];
[126458;1;3;1;5;31;55;11;103;391;881;1885;3923;7507;377;29331;32167;56915;44211];
[126463;1;1;7;1;27;55;33;141;393;73;701;3173;973;15553;10219;51441;55201;131055];
[126470;1;1;3;9;1;31;115;85;173;227;163;157;5569;8291;27163;7581;8699;104523];
[126484;1;1;1;5;5;19;11;55;217;571;1001;945;6237;1993;11809;63893;60081;102997];
[126518;1;3;3;15;15;7;51;161;147;263;1701;1079;3027;11779;24885;16127;68985;162975];
[126521;1;3;1;9;25;1;47;107;149;997;1779;2905;4951;10345;31059;63831;117219;251935];
[126547;1;3;3;9;5;23;83;95;399;343;1597;1733;5959;9685;4721;59109;113633;80365];
[126556;1;1;7;11;31;43;71;133;305;529;645;3095;6273;4019;14433;41609;64093;79051];
[126583;1;3;5;11;1;63;123;25;245;583;1013;3275;2997;13021;27515;16233;113093;249101];
[126584;1;1;1;9;3;59;113;155;125;423;259;1559;3745;9105;27673;36601;36117;47953];
[126633;1;3;3;7;19;41;55;87;53;801;661;329;3391;7581;25487;25751;120171;35953];
[126673;1;1;7;15;31;57;49;179;147;139;957;289;4321;8747;53;46003;40219;96855];
[126680;1;1;7;9;29;49;71;101;389;793;1355;3263;6331;4869;28479;8335;74653;8519];
[126686;1;1;1;13;1;19;31;161;261;679;1115;985;2855;4395;15087;18593;98535;52537];
[126689;1;1;3;11;15;51;79;7;75;75;753;2637;7193;7961;21411;24273;7543;6277];
[126702;1;3;1;5;5;51;67;191;201;777;587;1439;1027;3759;31141;42159;58475;7355];
[126710;1;3;5;3;15;37;11;251;53;799;739;2225;6985;9183;12341;29963;44101;23889];
[126722;1;1;3;3;5;33;81;223;89;531;301;305;2401;4015;18607;65041;82447;228487];
[126787;1;3;1;7;15;29;71;247;445;1005;1229;3897;899;11175;6349;29145;103153;90275];
[126789;1;3;3;7;15;7;75;13;417;719;121;1345;3737;4119;15259;33579;57727;111517];
[126794;1;3;7;3;31;11;49;61;405;741;1607;1561;4655;9775;14349;27431;91791;228607];
[126801;1;3;5;13;17;27;93;153;99;683;219;3783;6963;1633;6621;8133;5111;57333];
[126857;1;3;3;3;25;29;75;155;159;25;637;3053;4737;5831;9651;45331;100407;188607];
[126891;1;3;1;9;21;55;123;27;509;227;1569;1379;7137;11749;14257;38349;459;54873];
[126896;1;1;7;15;29;35;81;79;237;155;1551;343;5127;3233;3691;59917;7367;181979];
[126902;1;3;1;15;1;57;111;121;375;635;1529;635;2337;6553;22067;36047;80099;116411];
[126911;1;1;3;3;29;27;19;3;69;197;1829;1907;5901;12651;3295;7805;57871;47571];
[126919;1;1;1;13;21;5;115;51;203;991;1731;1101;1607;14323;12233;48047;33969;147621];
[126943;1;3;3;1;25;55;41;31;101;551;1519;1915;6961;13919;15339;13141;107625;9247];
[126947;1;1;7;11;17;25;87;175;341;445;1813;2995;3217;6015;1637;65243;72743;248715];
[126949;1;1;5;13;11;1;61;139;233;167;1363;1991;7999;16289;25595;8915;32205;169963];
[126953;1;1;1;13;31;33;67;57;121;477;755;2035;3683;16205;5511;25615;5169;128843];
[126971;1;3;5;15;31;1;89;29;493;379;1627;491;2503;8105;30275;27379;43905;46397];
[126976;1;1;7;9;31;41;127;121;61;561;223;3231;7321;3683;15455;8019;116739;96557];
[126982;1;1;5;9;19;41;25;65;111;535;611;1631;4251;107;19787;40749;65701;48749];
[127009;1;3;3;11;27;49;75;93;15;937;1517;1577;7485;8713;15979;13799;103057;144799];
[127021;1;1;7;7;7;29;3;63;177;781;2001;315;6703;8055;19081;33641;44279;87597];
[127027;1;1;7;11;29;53;83;223;275;951;1883;2447;1815;9313;9247;17185;8143;135247];
[127039;1;1;5;13;21;47;87;55;169;95;777;2787;7227;11373;16707;28237;30789;64589];
[127041;1;1;1;11;15;41;1;55;337;493;1379;2505;6831;10955;1875;21821;54101;9379];
[127044;1;3;5;15;27;9;121;49;439;781;1457;1341;7433;5879;13039;24001;64059;157077];
[127059;1;1;1;9;19;55;89;37;255;345;215;4067;8151;14253;12121;3637;29185;60643];
[127071;1;3;1;7;31;39;71;29;71;83;1249;871;8037;1001;25245;26651;34509;123607];
[127075;1;1;3;11;13;21;15;171;255;373;429;2179;4431;16087;17949;16307;129877;186495];
[127126;1;3;3;9;17;45;75;175;3;403;215;1781;7875;14113;6967;65263;125885;232983];
[127129;1;1;7;9;21;57;73;105;163;583;587;2743;2199;5187;5571;56399;797;192405];
[127145;1;1;1;3;29;27;71;145;11;455;1505;2789;4083;12345;14785;4981;95121;134977];
[127154;1;1;1;1;1;27;1;145;473;483;83;3009;7241;13633;15071;30767;128103;94727];
[127165;1;3;5;15;17;51;71;21;237;65;901;3365;7831;3027;8751;14435;79445;172587];
[127171;1;1;5;1;9;49;49;31;395;339;343;1813;2607;9347;11239;6761;127623;43459];
[127197;1;1;1;1;13;23;71;131;225;229;117;889;8145;5953;10679;38687;80029;63689];
[127198;1;1;5;1;29;1;87;181;441;353;257;335;203;10897;24085;26967;62573;170285];
[127207;1;1;7;3;3;39;47;135;353;977;89;259;6411;5511;10697;57623;27367;108451];
[127226;1;3;3;11;9;57;95;211;237;281;1703;2107;2179;3411;32621;5387;29971;102889];
[127240;1;1;1;13;27;49;47;49;413;985;649;1245;807;13637;21741;32565;80135;127971];
[127254;1;3;7;13;3;19;57;97;493;597;135;1689;5011;4579;6093;28341;37279;142197];
[127269;1;3;1;15;15;31;3;89;327;107;827;1111;261;6211;4359;38553;43297;75057];
[127305;1;1;1;9;19;19;53;195;141;297;141;3859;4173;12243;31399;6353;110505;172219];
[127323;1;3;3;9;31;51;59;53;55;723;1575;3399;8057;12317;8393;1719;96987;228955];
[127342;1;1;7;11;19;59;41;9;217;267;629;2977;4515;463;31773;61765;78827;51331];
[127347;1;3;3;13;9;55;51;177;183;431;555;3573;7977;3067;21111;12971;78283;260721];
[127363;1;1;1;11;27;5;89;69;435;199;221;1017;7703;7469;7755;46319;37941;55285];
[127394;1;1;7;13;19;55;53;207;367;177;1483;2857;3753;5493;13349;14033;7933;93457];
[127426;1;1;7;3;27;35;19;223;341;137;1195;1263;5937;13517;55;6391;106173;176503];
[127432;1;3;7;11;23;25;37;103;351;945;1205;2543;3875;155;27777;36647;47979;25113];
[127440;1;1;3;15;25;59;79;39;17;553;1119;3353;2619;3851;5945;47501;17369;89355];
[127462;1;1;1;13;9;55;13;173;207;925;1855;1871;7851;1361;20117;51677;77703;51309];
[127468;1;3;1;1;31;57;3;25;329;927;1683;1447;6853;103;9549;21393;415;122749];
[127473;1;1;5;5;31;61;31;213;85;531;931;999;1189;5189;15127;47799;70769;81901];
[127486;1;1;3;1;5;59;89;53;105;761;313;3013;4093;9595;4287;51505;20095;232933];
[127502;1;1;7;7;23;9;41;29;399;395;759;2541;2373;15365;12083;49579;34401;168121];
[127510;1;1;3;1;7;23;37;183;205;377;1081;1081;7767;363;14571;16265;18267;102155];
[127523;1;3;3;15;19;11;59;59;465;437;965;3707;3505;14785;23605;12505;130607;40693];
[127543;1;1;3;13;5;15;91;33;235;215;1997;2035;7407;3203;27143;14007;96411;593];
[127567;1;3;7;1;19;51;1;69;489;629;1731;393;6807;10521;23971;45649;105183;207351];
[127570;1;3;5;3;5;41;89;141;469;177;109;2439;7155;2083;31993;13933;100557;137255];
[127585;1;1;7;15;21;45;41;197;365;177;61;811;2535;5219;3689;53129;42063;60759];
[127588;1;3;5;1;23;7;19;193;253;793;539;3747;2611;16211;17199;14875;95377;6999];
[127619;1;1;3;5;9;5;9;129;217;473;151;3053;6981;8075;32121;31995;41271;208927];
[127621;1;1;5;9;9;9;89;139;381;937;1937;1879;8191;2237;25629;51471;87639;173697];
[127626;1;1;5;9;17;35;81;223;161;315;139;2597;2599;16191;2567;54947;8603;121589];
[127628;1;1;5;5;9;7;33;49;49;723;1013;1055;4025;1471;30081;17475;127931;63723];
[127640;1;3;7;7;9;49;107;17;335;119;1959;3613;8129;11033;12197;23803;112595;131655];
[127662;1;3;5;11;3;45;91;17;181;1005;985;3045;853;8181;5517;48515;16225;237151];
[127684;1;1;3;1;3;63;35;135;61;383;1233;675;151;2157;18711;37113;40353;61783];
[127687;1;3;5;5;29;3;105;11;351;761;165;911;6903;10111;1779;24601;3177;110301];
[127693;1;1;3;15;25;19;73;237;263;161;731;3853;7705;14497;30799;32979;100729;21761];
[127696;1;1;3;5;27;9;3;149;207;715;1435;2563;2451;7951;26313;55115;99423;231639];
[127708;1;1;5;15;11;51;13;47;311;969;2013;357;4847;1831;2235;22779;32375;40893];
[127711;1;1;3;9;21;45;11;99;275;849;443;1257;7855;9121;6549;20289;101337;13869];
[127722;1;1;1;15;25;27;15;111;215;437;1923;1985;4603;15469;6667;17941;50433;152759];
[127732;1;3;7;15;7;37;119;53;337;853;1785;3507;3743;14303;22757;5149;1539;227051];
[127747;1;1;3;13;11;23;55;19;495;531;1021;3831;5993;15819;2121;52773;19775;94643];
[127767;1;1;3;3;23;55;55;69;457;755;1187;3993;613;12691;1779;21251;2293;236725];
[127771;1;1;5;9;23;27;61;125;113;99;503;699;6873;13141;10649;65209;21773;162749];
[127790;1;1;1;11;15;27;111;227;493;361;1071;607;1409;9281;24515;26739;82421;30463];
[127816;1;3;5;1;11;57;23;239;265;675;441;4031;5163;15729;2741;26037;32533;140645];
[127824;1;3;3;7;3;45;105;135;493;579;1707;2933;1135;11891;3171;45401;24993;175681];
[127833;1;1;1;11;11;3;67;213;483;9;1053;213;3205;8487;16093;7305;122591;31811];
[127869;1;1;5;13;19;31;13;65;29;929;343;463;1885;13467;14997;22737;42869;128239];
[127910;1;3;3;13;9;47;125;33;475;285;1901;2525;305;11587;27309;30037;70681;180425];
[127928;1;3;5;15;9;37;45;149;19;135;555;4037;5173;12473;983;40923;28561;185941];
[127933;1;3;3;9;23;35;35;151;113;885;1553;2233;351;4071;28127;26109;12299;163973];
[127963;1;3;3;11;17;55;125;87;315;917;383;2397;1573;9255;10499;16051;99487;139415];
[127975;1;1;3;1;29;21;101;153;5;705;1965;1447;8163;13547;25929;28569;57897;173229];
[128016;1;1;7;15;3;37;113;213;495;935;529;2299;6901;1765;4255;14579;14175;112333];
[128031;1;3;3;9;11;53;89;27;461;235;1525;3533;3061;4351;12847;21649;10843;60901];
[128059;1;1;5;1;17;11;17;157;387;887;2017;3641;923;12659;19691;18657;3127;218819];
[128074;1;3;1;9;5;3;49;215;379;765;1375;345;2285;8197;9531;6725;22475;203883];
[128107;1;1;3;9;19;41;13;233;97;755;249;2011;5815;6317;4121;63637;43353;154753];
[128122;1;3;7;15;31;25;93;197;455;979;1805;2619;803;5705;1679;29317;66477;159187];
[128157;1;1;1;13;11;25;61;233;339;171;559;427;3239;8889;3711;19743;18099;49201];
[128161;1;3;7;13;19;5;9;183;355;137;1767;1113;1149;5791;4099;37911;75945;115397];
[128200;1;1;3;13;27;25;121;3;337;195;1841;2009;4181;3197;20275;42493;7495;24407];
[128213;1;1;1;15;3;43;39;25;57;829;565;1977;4027;11053;13961;13965;4207;1663];
[128229;1;3;5;9;11;7;107;205;479;961;1549;1701;6305;15419;23331;46443;55171;235109];
[128233;1;3;5;5;19;3;39;211;429;363;765;283;2469;1947;10481;1969;95545;187671];
[128241;1;1;1;1;11;55;47;121;251;63;767;3673;3233;14865;25713;48443;79139;225021];
[128259;1;1;3;11;25;35;57;103;385;155;173;4023;489;1733;14423;61843;24793;9871];
[128295;1;3;1;15;9;29;99;187;471;877;1321;2489;7439;4259;32703;1459;42093;261097];
[128299;1;1;3;11;9;25;113;251;337;405;847;2451;5649;3449;11703;18271;108005;208789];
[128313;1;3;3;7;13;53;61;251;461;461;1557;1215;6731;13349;21003;11573;66751;79733];
[128345;1;1;5;1;23;49;101;175;251;577;1667;2561;6545;16305;18457;65067;35843;123445];
[128362;1;1;5;3;7;9;61;107;395;137;559;2315;2559;11929;4843;41661;61361;146163];
[128375;1;3;1;5;1;3;43;251;329;289;323;2201;4129;4963;27477;18743;46551;93061];
[128376;1;1;7;3;17;63;21;159;447;377;69;2517;8181;6043;3039;7747;72465;41027];
[128406;1;1;1;1;13;3;45;93;391;509;867;1561;5017;11851;24891;22531;18993;129421];
[128410;1;3;3;11;15;1;127;9;161;321;2003;239;1379;11903;13503;26529;57725;214797];
[128416;1;1;1;13;31;11;17;25;1;645;675;735;2083;1919;18977;4995;91559;230463];
[128443;1;3;1;13;17;21;107;167;135;797;715;3275;5437;4253;11671;14867;36041;71751];
[128451;1;3;5;5;11;49;93;231;431;567;1605;3281;7049;2947;863;39593;117167;167301];
[128465;1;1;1;1;5;13;61;91;127;189;1879;3921;4303;4831;6765;31005;107627;80693];
[128466;1;3;1;3;1;49;61;9;467;891;105;317;137;12789;12367;57455;39777;88047];
[128484;1;1;3;13;23;63;37;103;23;223;647;2523;3211;14551;22663;48237;54777;180297];
[128499;1;3;3;7;29;51;85;179;441;431;535;2975;8083;8619;30229;31421;54063;163601];
[128502;1;3;1;1;27;39;125;171;57;729;511;957;7541;2347;1669;32323;108531;69943];
[128524;1;3;3;7;1;33;89;245;95;21;699;1441;2659;501;32323;39145;82311;155479];
[128536;1;1;3;11;29;13;87;251;329;667;325;2411;7959;8069;20817;42445;121675;113421];
[128541;1;1;1;7;9;57;109;237;325;535;89;1285;5649;13673;29375;51553;81723;11003];
[128542;1;3;1;1;13;5;31;109;157;817;1303;725;1841;5503;2255;34637;93603;82825];
[128592;1;3;7;7;5;33;39;233;217;157;357;2727;3565;1539;5317;23967;30375;260381];
[128598;1;1;5;3;23;51;45;181;353;519;949;3043;1517;3387;15081;5997;31523;80007];
[128623;1;1;3;5;23;21;83;51;275;629;1433;1821;3761;2367;32089;13813;99629;64603];
[128632;1;1;5;15;11;49;69;197;193;459;1915;787;3631;5219;11109;12311;56625;117439];
[128671;1;3;3;3;31;29;57;27;43;231;777;2139;2609;12273;23777;4151;51749;110013];
[128713;1;1;5;13;9;63;83;69;225;913;99;1167;5279;14163;3979;55151;84387;234583];
[128724;1;1;7;5;9;57;87;23;335;403;1843;725;5187;4137;24299;44807;98523;217815];
[128731;1;3;3;3;3;23;115;229;193;655;1205;3159;1935;113;20943;32917;69633;2133];
[128761;1;3;3;1;17;5;59;139;75;185;1951;3689;4997;2761;8673;41783;75075;101063];
[128767;1;3;1;13;1;51;63;127;67;743;1049;2055;4249;131;8153;50237;28135;76059];
[128782;1;3;7;13;5;39;83;63;429;573;1915;3801;2223;1585;16997;45571;23311;108099];
[128793;1;3;1;3;15;49;19;65;433;401;1901;3653;2399;15171;9695;30257;104877;181221];
[128805;1;3;1;1;25;37;89;7;81;343;949;3535;1681;10089;23513;3897;127083;214005];
[128820;1;3;7;13;1;1;123;89;433;541;1579;931;3459;11095;20729;13117;59323;90309];
[128830;1;1;7;1;19;9;31;211;271;25;1053;2249;6549;12785;16947;55633;70155;253741];
[128842;1;3;5;9;7;49;11;251;101;795;1015;2037;1239;10151;22179;749;2373;224517];
[128852;1;3;7;15;21;19;15;59;439;621;1081;3041;1587;3077;2319;51135;110513;222551];
[128859;1;1;5;5;9;61;49;97;361;647;351;1977;3023;10213;6889;8753;72203;37521];
[128866;1;3;3;1;7;29;51;117;259;81;1263;1829;6541;5699;30367;61325;78795;3491];
[128875;1;1;1;5;5;23;19;255;267;251;239;3561;6771;10647;4129;40285;11041;27023];
[128892;1;1;7;5;29;17;121;91;427;51;243;1617;5389;3633;14105;5329;109507;93719];
[128896;1;3;7;5;7;59;107;89;181;719;1029;585;2415;9175;11605;9271;12105;42503];
[128914;1;3;5;15;27;15;83;223;489;901;1823;1515;6295;12509;27179;181;29813;66163];
[128935;1;1;7;15;5;9;79;29;201;391;609;935;4025;201;8333;24557;33739;257979];
[128964;1;3;3;9;9;19;55;211;347;943;559;467;1363;10249;7109;41293;28035;205889];
[128973;1;1;5;3;21;25;25;163;95;119;789;1679;3845;1427;25531;13375;121029;194845];
[129001;1;1;5;3;31;21;83;27;17;59;885;3889;4795;4383;28739;55129;10387;176437];
[129007;1;3;1;5;31;39;37;79;433;313;1155;3025;6141;10695;27819;28227;32161;250515];
[129012;1;1;5;9;27;41;3;129;235;621;1171;3305;6309;5323;15049;16301;13817;238521];
[129021;1;3;7;7;27;31;63;143;183;625;1627;3093;6597;14089;30197;60411;66221;221691];
[129026;1;3;7;13;21;15;59;67;441;113;1229;1587;5889;6691;10641;11865;89791;82867];
[129055;1;1;7;9;13;21;53;145;235;877;2005;1005;7137;6091;19611;25959;124019;216269];
[129071;1;3;7;9;17;63;5;245;397;351;1613;4079;7235;4397;18951;11609;71593;148615];
[129093;1;3;3;11;5;59;65;221;237;527;861;397;249;15273;8415;61185;59419;98115];
[129105;1;1;3;5;5;59;17;247;3;765;835;1131;3985;9021;18067;28525;86513;250227];
[129124;1;3;7;15;25;47;119;143;143;283;1791;59;8171;12577;17079;9809;100299;63977];
[129148;1;3;5;13;1;47;93;159;199;863;1279;77;4719;3623;30713;39271;126299;130297];
[129151;1;1;5;3;23;11;119;187;57;373;747;1507;5165;12929;903;49041;70215;117113];
[129155;1;1;5;1;3;59;23;77;151;77;627;2865;7055;10469;12095;20481;13429;47573];
[129161;1;3;1;13;27;13;115;233;343;407;1321;4011;5589;15369;23495;4435;75421;229325];
[129200;1;3;3;3;5;51;89;53;275;279;203;2829;4415;4735;25417;17633;99445;183945];
[129224;1;3;3;15;7;9;91;63;143;945;453;4001;3943;7285;9359;27507;8571;31827];
[129230;1;3;3;11;15;49;103;25;273;791;145;2203;4721;7709;25085;33937;98693;97445];
[129237;1;1;5;15;9;13;87;27;331;137;1031;585;7841;12213;32259;46953;17813;203379];
[129298;1;3;1;5;29;53;121;179;21;311;991;2145;6577;12889;8763;46629;128093;105033];
[129300;1;3;1;9;7;29;57;137;333;109;615;749;2665;13087;13989;41857;102937;125183];
[129316;1;1;5;5;3;23;107;5;319;503;1209;47;349;11681;28521;44707;112887;232275];
[129345;1;3;3;13;13;51;13;5;293;15;555;135;2565;13325;30411;14837;65591;249205];
[129351;1;3;5;13;17;3;73;255;447;699;503;3655;7735;12163;6167;15027;103831;146395];
[129352;1;3;1;13;5;9;27;45;397;463;1739;3193;6731;7533;11217;22359;82603;231613];
[129363;1;1;3;15;5;43;73;191;53;187;1905;745;1571;9013;8515;59527;104671;227063];
[129393;1;1;3;1;5;47;57;179;433;979;147;1701;4019;6855;24487;65495;69919;6659];
[129410;1;3;3;1;17;17;13;75;163;781;421;1573;2519;9243;20693;60909;65661;208125];
[129415;1;3;5;7;27;57;39;79;157;415;729;3651;3581;9443;6409;45993;99051;140977];
[129449;1;3;3;13;1;7;109;77;423;185;97;3719;2355;10593;2421;37339;24961;24305];
[129477;1;3;5;13;17;7;125;43;453;43;643;3757;3721;16083;20871;26451;95201;29153];
[129501;1;1;7;3;13;49;99;253;59;21;445;3677;6683;2165;32367;55249;5991;155033];
[129518;1;1;3;9;21;9;15;219;175;631;665;2455;4701;10639;13907;26937;58867;259861];
[129520;1;3;5;5;23;5;39;233;27;811;1435;625;4703;3699;20763;50047;123875;10129];
[129545;1;1;7;5;23;1;49;223;309;691;953;575;5279;10515;11519;35387;48417;134001];
[129563;1;1;7;11;3;15;125;109;39;713;1823;1613;4347;6839;29511;26865;102077;31425];
[129594;1;1;1;7;31;43;13;221;115;993;1155;1641;1063;2065;18909;45769;65331;188455];
[129608;1;1;7;13;21;9;59;7;79;217;2009;667;7685;14761;20149;44133;41037;78369];
[129616;1;3;1;9;23;57;1;193;77;681;1135;3657;8149;3559;25011;55027;121903;240157];
[129652;1;3;3;5;31;41;59;5;159;627;1569;23;2311;2239;20811;54931;130949;193071];
[129659;1;1;1;1;27;45;43;1;381;801;451;1361;1611;5379;27819;8949;4953;222335];
[129680;1;1;7;7;7;11;101;17;197;561;297;159;7443;7273;819;23487;24927;151781];
[129692;1;3;1;3;15;43;119;193;205;835;7;689;8045;11167;19521;65075;87265;53669];
[129738;1;3;7;7;9;51;43;209;239;415;995;4037;1219;2683;30459;36161;111157;184551];
[129764;1;3;7;11;27;3;81;43;407;463;231;3545;2691;5235;22053;37233;98757;149111];
[129782;1;3;1;5;17;25;47;185;487;403;1063;1445;4457;15443;11693;54823;131001;9813];
[129793;1;3;5;3;5;35;127;253;173;491;133;3575;1981;12735;26021;61615;74615;159829];
[129820;1;1;5;9;13;37;67;155;317;389;603;4061;3527;9315;32331;43145;82511;240133];
[129824;1;1;5;1;21;41;89;3;61;627;1301;2073;447;8139;2509;52075;50687;240239];
[129829;1;3;7;13;25;61;117;107;175;7;1173;561;5777;10525;20713;34987;48005;214361];
[129848;1;3;7;15;25;31;127;147;177;881;95;2115;4765;10485;9253;721;193;222459];
[129854;1;3;5;3;3;13;47;77;441;1001;215;2365;3603;405;11401;14523;65755;258229];
[129861;1;1;3;9;19;29;71;153;77;613;1815;2033;1821;15497;18805;28851;88247;143115];
[129879;1;3;1;11;21;19;37;35;427;887;1977;1961;3619;10739;30115;55937;102045;110929];
[129886;1;3;3;13;21;27;49;15;405;629;2015;867;2121;13789;19225;22343;105629;123113];
[129907;1;1;1;1;17;19;55;207;507;1001;1753;315;2799;8643;1519;4057;16599;222223];
[129949;1;1;5;7;21;37;63;53;103;261;595;389;6041;11127;23625;61683;80953;255891];
[129953;1;1;1;5;25;21;81;233;79;57;1311;3965;7747;687;32149;397;4551;37657];
[129980;1;1;1;5;9;19;87;67;325;157;317;591;1401;8275;20413;39529;75349;183679];
[129998;1;3;3;15;9;3;83;205;195;599;829;3109;3705;13991;8781;41555;31689;86933];
[130031;1;3;5;1;3;9;37;235;271;883;561;1473;7693;177;14113;19507;75221;67517];
[130043;1;1;1;9;7;29;87;189;239;429;537;1657;6373;2449;17621;19649;77235;102775];
[130057;1;1;7;7;1;43;69;207;241;561;1809;3119;4657;15797;18751;52169;105005;172657];
[130065;1;1;7;5;5;59;67;231;27;435;1073;2689;229;733;1579;52289;110285;76721];
[130087;1;3;5;9;31;19;87;41;489;705;1363;963;5865;8237;10295;43169;81561;177209];
[130091;1;3;3;1;25;39;63;255;403;625;1601;71;6609;4165;21987;31269;25473;17063];
[130096;1;3;3;11;19;13;101;245;17;687;1037;3345;7257;13081;5131;29003;72319;223505];
[130101;1;3;3;3;11;49;107;29;463;465;977;4007;2121;4821;1465;53725;36783;247057];
[130111;1;1;1;3;1;43;71;49;261;965;1041;3951;3791;2503;26009;52039;4639;141281];
[130126;1;1;3;5;29;45;79;33;119;491;1403;1637;853;5609;29853;16435;117877;58443];
[130137;1;1;3;5;13;17;109;187;201;705;235;1485;7673;6335;3341;20451;64697;129519];
[130138;1;1;7;13;11;41;95;81;135;783;1293;2095;3599;10175;3205;56915;131;19281];
[130149;1;3;5;9;13;19;53;223;283;733;1915;3029;2779;8133;28163;37263;91245;1927];
[130177;1;3;3;3;1;55;41;123;209;195;1423;2467;3809;11169;23593;8703;40975;175651];
[130180;1;3;7;9;31;57;31;115;415;445;557;3971;1565;15223;7799;10463;117387;225127];
[130214;1;3;5;11;31;19;3;63;315;501;903;1925;3393;16149;11013;15483;70765;279];
[130228;1;3;3;9;29;21;13;227;263;815;1259;2549;955;9237;16083;38891;31145;731];
[130240;1;3;3;5;27;23;33;189;107;655;889;1549;7315;13341;12721;59339;54503;91679];
[130267;1;3;7;5;15;9;1;255;451;91;1279;2359;5913;5215;23161;29327;45275;206709];
[130280;1;3;3;9;9;41;75;91;87;695;335;3375;7307;14095;5359;7815;9339;46387];
[130294;1;1;3;15;5;47;69;231;423;255;1335;3395;2799;8955;31445;59849;104955;240587];
[130306;1;3;5;7;7;9;21;209;321;5;653;2199;3657;6397;20229;32349;54543;47971];
[130325;1;3;7;11;31;21;85;49;197;865;53;609;1867;14503;12671;61703;39245;8493];
[130398;1;3;1;13;27;31;119;247;209;65;1729;1563;1597;1617;26597;50139;108667;77035];
[130402;1;1;5;13;3;49;53;219;71;1013;1239;3725;117;9273;8277;32619;45933;71509];
[130421;1;3;7;13;1;3;119;153;79;555;429;1221;3725;6073;1295;7187;117709;258911];
[130438;1;3;3;13;1;13;105;185;81;989;563;3761;6725;4699;10539;50247;95307;211927];
[130441;1;3;7;3;21;11;45;81;495;391;1437;3495;3789;13701;9479;42505;22561;135019];
[130475;1;3;3;11;7;61;65;211;269;997;385;3843;4905;2939;28551;19515;25177;68137];
[130486;1;1;3;3;3;47;73;127;15;977;209;1791;4711;6733;29093;36311;13665;240603];
[130503;1;3;5;5;19;39;29;211;463;755;1723;397;213;14009;22701;7131;35587;183885];
[130551;1;3;5;9;11;29;7;25;381;631;1343;2255;2535;3239;7287;14161;69295;85245];
[130574;1;1;5;5;17;47;19;217;289;411;1855;323;4109;2601;5835;61909;99333;99959];
[130602;1;1;3;11;1;51;121;207;403;993;1171;3451;3389;957;22125;9333;110775;54125];
[130612;1;3;5;15;9;51;13;251;203;861;321;2017;6933;10785;20089;65213;105451;117319];
[130621;1;3;3;15;19;63;89;217;269;723;57;1923;4267;4895;2191;21605;62401;11063];
[130633;1;3;1;3;21;47;103;75;167;989;1401;575;3717;10373;21321;5487;36063;140411];
[130684;1;1;7;15;19;29;121;197;429;773;901;1875;291;11395;31459;55041;49263;185143];
[130688;1;3;3;1;19;17;19;21;41;885;1665;547;5887;6205;3317;59399;125559;82721];
[130698;1;3;1;9;15;39;81;9;279;33;1287;3035;5759;10647;3933;20953;3137;30693];
[130700;1;3;5;13;3;33;33;169;233;83;467;3719;5617;6165;15631;56059;95541;245233];
[130712;1;3;5;13;5;21;81;9;413;247;1307;3363;3383;11525;1259;8735;36507;98359];
[130739;1;1;1;13;17;49;105;131;385;309;1295;565;8031;15391;31263;52657;102721;212195];
[130748;1;3;1;7;13;41;21;103;237;649;55;1565;6327;8743;15457;29975;34165;80839];
[130774;1;3;5;11;15;31;121;219;375;159;731;59;3205;15039;10023;46209;34619;110253];
[130783;1;3;3;11;31;19;79;185;363;635;463;987;2681;6405;30077;21173;14213;58095];
[130802;1;1;5;13;23;37;57;111;293;553;269;3393;345;1983;1097;47217;22281;212607];
[130811;1;3;5;7;7;33;65;61;185;411;187;641;6437;4625;17547;38941;81119;48651];
[130836;1;1;7;3;19;25;39;243;139;465;691;713;7879;14539;31669;35871;130681;255929];
[130840;1;3;1;1;3;43;87;13;179;835;719;1189;7207;5863;6077;20669;35469;211155];
[130856;1;3;7;13;25;59;97;129;151;985;739;1919;7729;14057;21721;17603;82797;181319];
[130864;1;1;7;7;5;3;21;141;379;257;207;597;4051;7563;25481;59427;45449;61159];
[130873;1;3;3;9;11;25;5;29;131;603;637;189;4033;13099;15219;4447;73501;135795];
[130918;1;3;1;9;1;49;57;227;141;543;1499;3525;3127;11191;4071;47003;7431;155137];
[130927;1;3;1;11;27;31;15;31;113;135;1251;245;6965;14263;5679;55201;121453;132503];
[130929;1;1;5;15;7;23;67;163;57;513;1809;1343;6165;199;31169;30803;86705;71103];
[130958;1;1;3;1;15;9;75;143;273;797;819;4037;2305;4841;15697;41191;38187;174131];
[130966;1;3;7;7;3;55;65;135;423;185;299;2221;7987;4223;28183;32273;95941;260297];
[130970;1;1;7;7;7;11;67;109;507;673;1555;2537;7553;4659;3945;20839;32539;43053];
[130976;1;1;7;15;1;47;61;73;211;397;1785;4063;6461;13725;11299;17565;80063;118271];
[131006;1;1;7;5;29;27;97;105;379;153;915;2795;4933;6729;21207;9995;70241;85641];
[131008;1;3;5;5;23;13;41;67;127;649;1351;3597;7077;4989;14649;17401;70883;239841];
[131020;1;1;5;1;19;1;83;3;425;873;1943;3935;4257;14587;11829;55217;21963;39683];
[131059;1;1;7;11;15;7;37;239;337;245;1557;3681;7357;9639;27367;26869;114603;86317]].
