import re
src=open('/repo/src/WBMatrix/WBMatrix.c').read()
def norm(s):
    s=re.sub(r'//[^\n]*','',s); return re.sub(r'\s+','',s)
def body(name):
    m=re.search(r'^[a-z0-9_]+ '+name+r'\([^\n]*\)[^\n]*\n\{.*?^\}',src,re.M|re.S); s=m.group(0)
    return s[s.index('{',s.index('\n')):]
P={'M4':(4,1,'uint8_t','idM4'),'M8':(8,1,'uint8_t','idM8'),'M16':(16,1,'uint16_t','idM16'),'M32':(32,1,'uint32_t','idM32'),'M64':(64,1,'uint64_t','idM64'),'M128':(64,2,'uint64_t','idM64'),'M256':(64,4,'uint64_t','idM64')}
def acc(m,i,k,W): return f'{m}.M[{i}]' if W==1 else f'{m}.M[{i}][{k}]'
def gen(T,kind):
    wb,W,ct,idt=P[T]; n=wb*W
    ix=lambda v,b: f'{idt}[{v}]' if b==0 else f'{idt}[{v}-{64*b}]'
    A=lambda m,i,k: acc(m,i,k,W)
    def test(m,i,col,b): return f'if(({A(m,i,b)}&{ix(col,b)})=={ix(col,b)})'
    def xr(m,j,i,ws): return ''.join(f'{A(m,j,k)}^={A(m,i,k)};' for k in ws)
    def sw(m,i,j,ws): return ''.join(f'temp={A(m,i,k)};{A(m,i,k)}={A(m,j,k)};{A(m,j,k)}=temp;' for k in ws)
    def tr(op,j,i): return f'trail[times][0]={op};trail[times][1]={j};trail[times][2]={i};times++;'
    al=range(W)
    V='(*Mat_inv)'
    if kind=='isinvert':
        s=f'«inti,j,k;{ct}temp;intflag;'
        for b in range(W):
            pw=range(b,W)
            s+=f'for(i={wb*b};i<{wb*(b+1)};i++)«{test("Mat","i","i",b)}«for(j=i+1;j<{n};j++)«{test("Mat","j","i",b)}«{xr("Mat","j","i",pw)}»»»else«flag=1;for(j=i+1;j<{n};j++)«{test("Mat","j","i",b)}«{sw("Mat","i","j",pw)}flag=0;break;»»if(flag)return0;for(k=i+1;k<{n};k++)«{test("Mat","k","i",b)}«{xr("Mat","k","i",pw)}»»»»'
        s+=f'if({A("Mat",n-1,W-1)}=={idt}[{wb-1}])return1;elsereturn0;»'
    if kind=='invs':
        s=f'«inti,j,k;{ct}temp;identity{T}(Mat_inv);'
        for b in range(W):
            pw=range(b,W)
            el=lambda j: f'{test("Mat",j,"i",b)}«{xr("Mat",j,"i",pw)}{xr(V,j,"i",al)}»'
            s+=f'for(i={wb*b};i<{wb*(b+1)};i++)«{test("Mat","i","i",b)}«for(j=i+1;j<{n};j++)«{el("j")}»»else«for(j=i+1;j<{n};j++)«{test("Mat","j","i",b)}«{sw("Mat","i","j",pw)}{sw(V,"i","j",al)}break;»»for(k=i+1;k<{n};k++)«{el("k")}»»»'
        for b in reversed(range(W)):
            s+=f'for(i={wb*(b+1)-1};i>={wb*b};i--)«for(j=i-1;j>=0;j--)«{test("Mat","j","i",b)}«{xr("Mat","j","i",[b])}{xr(V,"j","i",al)}»»»'
        s+='»'
    if kind=='genMatpair':
        M='tempMat'
        if W==1: s=None
        s=f'«inti,j,t,k;intp,q;{T}tempMat;{T}resultMat;{ct}temp;uint8_ttrail[{n*n}][3];intflag=0;inttimes=0;intinvertible=1;InitRandom((randseed++)^((unsignedint)time(NULL)));identity{T}(Mat);identity{T}(Mat_inv);rand{T}(&tempMat);copy{T}(tempMat,&resultMat);'
        for b in range(W):
            pw=range(b,W)
            el=lambda j: f'{test(M,j,"i",b)}«{xr(M,j,"i",pw)}{xr(V,j,"i",al)}{tr(1,j,"i")}»'
            core=f'p=i+1+cus_random()%({n-1}-i);{sw(M,"p","i",pw)}{sw(V,"p","i",al)}{tr(0,"p","i")}for(t=i+1;t<{n};t++)«if(cus_random()%2)«{xr(M,"t","i",pw)}{xr(V,"t","i",al)}{tr(1,"t","i")}»»'
            if 0<b<W-1: core='«'+core+'»'
            if b==W-1: core0=core;core=f'if(i<{n-1})«{core}»'
            s+=f'for(i={wb*b};i<{wb*(b+1)};i++)«{test(M,"i","i",b)}«for(j=i+1;j<{n};j++)«{el("j")}»»else«flag=1;for(j=i+1;j<{n};j++)«{test(M,"j","i",b)}«{sw(M,"i","j",pw)}flag=0;{sw(V,"i","j",al)}{tr(0,"j","i")}break;»»if(flag)«invertible=0;{core}»else«for(k=i+1;k<{n};k++)«{el("k")}»»»»'
        s+='if(!invertible)«'
        for b in reversed(range(W)):
            s+=f'for(t={wb*(b+1)-1};t>={wb*b};t--)«for(j=t-1;j>=0;j--)«{test(M,"j","t",b)}«{xr(M,"j","t",[b])}{xr(V,"j","t",al)}{tr(1,"j","t")}»»»'
        s+=f'for(j=times-1;j>=0;j--)«if(trail[j][0])«{xr("(*Mat)","trail[j][1]","trail[j][2]",al)}»else«{sw("(*Mat)","trail[j][1]","trail[j][2]",al)}»»»else«'
        for b in reversed(range(W)):
            s+=f'for(i={wb*(b+1)-1};i>={wb*b};i--)«for(j=i-1;j>=0;j--)«{test(M,"j","i",b)}«{xr(M,"j","i",[b])}{xr(V,"j","i",al)}»»»'
        s+=f'copy{T}(resultMat,Mat);»»'
    return s.replace('«','{').replace('»','}')
for T in P:
    for kind in ['isinvert','invs','genMatpair']:
        e=gen(T,kind); a=norm(body(kind+T))
        if e==a: print(T,kind,'same')
        else:
            i=next((i for i in range(min(len(e),len(a))) if e[i]!=a[i]),min(len(e),len(a)))
            print(T,kind,'DIFF at',i,'\n  exp',e[max(0,i-60):i+60],'\n  act',a[max(0,i-60):i+60])
